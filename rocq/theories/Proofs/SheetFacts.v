(** The sheet after reset, and its evolution. *)
From Coq Require Import Reals ZArith List Bool Arith Lia Lra Sorting.Sorted.
From Flocq Require Import Core.
From Verif Require Import Base.Prelude Base.Rounding Base.Random Model.Constants
  Model.Geometry Model.MicroscopeUtils Model.Graphene Spec.Grids Spec.Lattice Spec.Material Spec.MaterialRuns
  Spec.Neighbours
  Proofs.BaseFacts Proofs.RoundingFacts Proofs.FovFacts Proofs.GeometryFacts Proofs.MaterialFacts
  Proofs.RateFacts Proofs.GaussianFacts Proofs.ExposureFacts Proofs.LatticeFacts.
Import ListNotations.
Open Scope R_scope.

Lemma rotate_rhs_rotate p a : rotate_rhs p a = rotate p (- a).
Proof. unfold rotate_rhs, rotate. rewrite cos_neg, sin_neg. apply pt_eq; simpl; ring. Qed.

Lemma rotate_rhs_sub p q a : psub (rotate_rhs p a) (rotate_rhs q a) = rotate_rhs (psub p q) a.
Proof. unfold rotate_rhs; apply pt_eq; simpl; ring. Qed.

Lemma rotate_rhs_psq p a : psq (rotate_rhs p a) = psq p.
Proof.
  unfold rotate_rhs, psq; simpl. pose proof (sin2_cos2 a) as H. unfold Rsqr in H.
  transitivity ((px p * px p + py p * py p) * (sin a * sin a + cos a * cos a)); [ring|rewrite H; ring].
Qed.

Lemma rotate_rhs_dist p q a : pdist (rotate_rhs p a) (rotate_rhs q a) = pdist p q.
Proof. unfold pdist, pnorm. rewrite rotate_rhs_sub, rotate_rhs_psq. reflexivity. Qed.

(** placing a lattice point on the sheet *)
Definition place (c o : pt) (a : R) (p : pt) : pt :=
  rotate_rhs (padd (psub (pscale CARBON_BOND_DISTANCE_ANGSTROMS p) c) o) a.

Lemma place_dist c o a p q :
  pdist (place c o a p) (place c o a q) = 142 / 100 * pdist p q.
Proof.
  unfold place. rewrite rotate_rhs_dist. unfold pdist.
  replace (psub (padd (psub (pscale CARBON_BOND_DISTANCE_ANGSTROMS p) c) o)
                (padd (psub (pscale CARBON_BOND_DISTANCE_ANGSTROMS q) c) o))
    with (pscale CARBON_BOND_DISTANCE_ANGSTROMS (psub p q)) by (apply pt_eq; simpl; ring).
  rewrite pnorm_scale. unfold CARBON_BOND_DISTANCE_ANGSTROMS.
  rewrite Rabs_pos_eq by lra. reflexivity.
Qed.

Lemma generate_spec {G} (s : sampler G) n g : sampler_ok s ->
  exists o a, - (71 / 100) <= px o <= 71 / 100 /\ - (71 / 100) <= py o <= 71 / 100 /\
    0 <= a <= 2 * PI /\
    fst (generate_pristine_graphene s n g) =
    map (place (pmean (map (pscale CARBON_BOND_DISTANCE_ANGSTROMS) (generate_hexagonal_grid n))) o a)
        (generate_hexagonal_grid n).
Proof.
  intros O. unfold generate_pristine_graphene.
  assert (H : - (CARBON_BOND_DISTANCE_ANGSTROMS / 2) <= CARBON_BOND_DISTANCE_ANGSTROMS / 2)
    by (unfold CARBON_BOND_DISTANCE_ANGSTROMS; lra).
  pose proof (uniform_range _ O _ _ g H) as U1.
  destruct (s_uniform s _ _ g) as [ox g1]; simpl in U1.
  pose proof (uniform_range _ O _ _ g1 H) as U2.
  destruct (s_uniform s _ _ g1) as [oy g2]; simpl in U2.
  assert (0 <= 2 * PI) as HP by (pose proof PI_RGT_0; lra).
  pose proof (uniform_range _ O 0 (2 * PI) g2 HP) as U3.
  destruct (s_uniform s 0 (2 * PI) g2) as [a g3]; simpl in U3.
  exists (mkpt ox oy), a. unfold CARBON_BOND_DISTANCE_ANGSTROMS in U1, U2. simpl.
  split; [lra|]. split; [lra|]. split; [lra|].
  unfold centered. rewrite !map_map. reflexivity.
Qed.

(** the centroid of the sheet *)
Lemma psum_map_linear (f : pt -> pt) l :
  f pzero = pzero -> (forall p q, f (padd p q) = padd (f p) (f q)) -> psum (map f l) = f (psum l).
Proof. intros Z A. induction l as [|x l IH]; simpl; [auto|]. rewrite IH, A. reflexivity. Qed.

Lemma psum_map_add l o : psum (map (fun p => padd p o) l) = padd (psum l) (pscale (INR (length l)) o).
Proof.
  induction l as [|x l IH].
  - simpl. apply pt_eq; simpl; ring.
  - cbn [map psum fold_right]. fold (psum (map (fun p => padd p o) l)). rewrite IH.
    cbn [length]. rewrite S_INR. fold (psum l). apply pt_eq; simpl; ring.
Qed.

Lemma pmean_map_add l o : l <> [] -> pmean (map (fun p => padd p o) l) = padd (pmean l) o.
Proof.
  intros N. unfold pmean. rewrite map_length, psum_map_add.
  assert (0 < INR (length l)) by (destruct l; [congruence|cbn [length]; apply lt_0_INR; lia]).
  apply pt_eq; simpl; field; lra.
Qed.

Lemma pmean_map_linear f l : (forall k p, f (pscale k p) = pscale k (f p)) ->
  (forall p q, f (padd p q) = padd (f p) (f q)) -> pmean (map f l) = f (pmean l).
Proof.
  intros S A. unfold pmean. rewrite map_length, S, psum_map_linear; auto.
  assert (pzero = pscale 0 pzero) as E by (apply pt_eq; simpl; ring).
  rewrite E at 1. rewrite S. apply pt_eq; simpl; ring.
Qed.

Lemma sheet_centroid n o a : generate_hexagonal_grid n <> [] ->
  pmean (map (place (pmean (map (pscale CARBON_BOND_DISTANCE_ANGSTROMS) (generate_hexagonal_grid n))) o a)
        (generate_hexagonal_grid n)) = rotate_rhs o a.
Proof.
  intros N. set (l := generate_hexagonal_grid n) in *. set (k := CARBON_BOND_DISTANCE_ANGSTROMS).
  set (c := pmean (map (pscale k) l)).
  replace (map (place c o a) l) with
    (map (fun p => rotate_rhs p a) (map (fun p => padd p o) (map (fun p => padd p (pneg c)) (map (pscale k) l)))).
  2:{ rewrite !map_map. apply map_ext. intros p. unfold place. fold k. apply pt_eq; unfold rotate_rhs; simpl; ring. }
  rewrite pmean_map_linear.
  2:{ intros; unfold rotate_rhs; apply pt_eq; simpl; ring. }
  2:{ intros; unfold rotate_rhs; apply pt_eq; simpl; ring. }
  f_equal. rewrite pmean_map_add by (destruct l; [congruence|discriminate]).
  rewrite pmean_map_add by (destruct l; [congruence|discriminate]).
  fold c. apply pt_eq; simpl; ring.
Qed.

(** size of the sheet *)
Lemma sheet_empty n : generate_hexagonal_grid n = [] <-> (n <= 1)%nat.
Proof.
  pose proof sqrt3_pos as S3. pose proof sqrt3_sq as S33.
  split.
  - intros E. destruct (Nat.le_gt_cases n 1) as [|H]; auto. exfalso.
    assert (In (site 2 0) (generate_hexagonal_grid n)) as Hin.
    { apply sheet_In. exists 2%Z, 0%Z. split; auto. split; [split; [reflexivity|discriminate]|].
      split; [lia|]. split; [lia|]. assert (2 <= INR n) by (apply (le_INR 2); lia). simpl. nra. }
    rewrite E in Hin. inversion Hin.
  - intros H. destruct (generate_hexagonal_grid n) as [|p l] eqn:E; auto. exfalso.
    assert (In p (generate_hexagonal_grid n)) as Hin by (rewrite E; left; auto).
    apply sheet_In in Hin. destruct Hin as (x & y & _ & (P & M) & X & Y & Hn).
    assert (n = 1%nat) by lia. subst n. simpl in Hn.
    assert (x = 1)%Z. { assert (x = 0 \/ x = 1)%Z as [->| ->] by lia; auto. exfalso. apply M. reflexivity. }
    subst x. assert (y <> 0)%Z by (intros ->; discriminate).
    assert (1 <= IZR y) by (apply IZR_le; lia). nra.
Qed.

(** reset *)
Definition sheet_of (n : nat) (ps : list pt) : Prop :=
  exists c o a, - (71 / 100) <= px o <= 71 / 100 /\ - (71 / 100) <= py o <= 71 / 100 /\
    0 <= a <= 2 * PI /\ pmean ps = rotate_rhs o a /\ ps = map (place c o a) (generate_hexagonal_grid n).

Lemma place_inj c o a p q : place c o a p = place c o a q -> p = q.
Proof.
  intros E. apply pdist_zero. pose proof (place_dist c o a p q) as D. rewrite E, pdist_self in D. lra.
Qed.

Lemma sheet_of_NoDup n ps : sheet_of n ps -> NoDup ps.
Proof.
  intros (c & o & a & _ & _ & _ & _ & ->). apply NoDup_map_inj_in; [|apply sheet_NoDup].
  intros x y _ _ E. eapply place_inj; eauto.
Qed.

Lemma reset_ok {G} (s : sampler G) m g : sampler_ok s -> (2 <= m_columns m)%nat ->
  exists ps i gr m' g', material_reset s m g = (Ok tt, m', g') /\
    m_columns m' = m_columns m /\ m_rate_function m' = m_rate_function m /\ m_reset m' = true /\
    m_grid m' = Some gr /\ positions gr = ps /\ sheet_of (m_columns m) ps /\
    single_doped gr i /\
    (forall j p q, nth_error ps i = Some p -> nth_error ps j = Some q ->
       pnorm p <= pnorm q /\ ((j < i)%nat -> pnorm p < pnorm q)).
Proof.
  intros O C. unfold material_reset; simpl.
  destruct (generate_spec s (m_columns m) g O) as (o & a & H1 & H2 & H3 & E).
  assert (Nl : generate_hexagonal_grid (m_columns m) <> []).
  { intros X. apply sheet_empty in X. lia. }
  destruct (generate_pristine_graphene s (m_columns m) g) as [ps g']; simpl in E.
  assert (Sh : sheet_of (m_columns m) ps).
  { do 3 eexists. split; [exact H1|]. split; [exact H2|]. split; [exact H3|]. split; [|exact E].
    rewrite E. apply sheet_centroid; auto. }
  destruct (argmin (map pnorm ps)) as [i|] eqn:Ea.
  2:{ exfalso. apply argmin_None in Ea. apply map_eq_nil in Ea. rewrite E in Ea. apply map_eq_nil in Ea. auto. }
  apply argmin_spec in Ea. destruct Ea as (Li & Mi & Fi). rewrite map_length in *.
  exists ps, i. do 3 eexists. split; [reflexivity|]. simpl. do 3 (split; [reflexivity|]).
  split; [reflexivity|]. split; [reflexivity|]. split; [exact Sh|].
  split; [apply carbon_upd_doped; auto|].
  intros j p q Hp Hq. pose proof (nth_error_lt _ _ _ Hq) as Lj.
  assert (Nn : forall k x, nth_error ps k = Some x -> nth k (map pnorm ps) 0 = pnorm x).
  { intros k x Hk. apply nth_error_nth_default. apply nth_error_map_Some. eauto. }
  split.
  - specialize (Mi j Lj). rewrite (Nn _ _ Hp), (Nn _ _ Hq) in Mi. auto.
  - intros L. specialize (Fi j L). rewrite (Nn _ _ Hp), (Nn _ _ Hq) in Fi. auto.
Qed.

Lemma reset_fails {G} (s : sampler G) m g : (m_columns m <= 1)%nat ->
  exists m' g', material_reset s m g = (Raise ValueError, m', g') /\
    m_reset m' = true /\ m_grid m' = m_grid m.
Proof.
  intros C. apply sheet_empty in C. unfold material_reset, generate_pristine_graphene; simpl.
  rewrite C; simpl.
  destruct (s_uniform s _ _ g) as [ox g1]. destruct (s_uniform s _ _ g1) as [oy g2].
  destruct (s_uniform s _ _ g2) as [a g3]. simpl. eauto.
Qed.

Lemma hop_doped ps g g' : doped_sheet ps g -> hop g g' -> doped_sheet ps g'.
Proof.
  intros (P & _) (P' & s & s' & idx & _ & D & _). split; [congruence|eauto].
Qed.

Lemma steps_hop rf pos ps g g' : hopping rf -> NoDup ps -> doped_sheet ps g ->
  steps_to rf pos g g' -> hop g g'.
Proof.
  intros H N (P & s & D) (rs & r & E & I). subst ps. destruct (H g s pos rs D N E) as [_ K]. eapply K; eauto.
Qed.

Lemma chain_hops rf pos ps l : hopping rf -> NoDup ps -> forall g, doped_sheet ps g ->
  chain (steps_to rf pos) g l -> chain hop g l /\ doped_sheet ps (last l g).
Proof.
  intros H N. induction l as [|g' l IH]; intros g D C.
  - split; [constructor|auto].
  - inversion C; subst. assert (hop g g') as Hh by (eapply steps_hop; eauto).
    assert (D' : doped_sheet ps g') by (eapply hop_doped; eauto).
    destruct (IH g' D' ltac:(assumption)) as [C' L]. split.
    + constructor; auto.
    + rewrite last_cons. auto.
Qed.

Lemma apply_control_hops {G} (s : sampler G) fuel m c g ps gr r m' g' ts :
  hopping (m_rate_function m) -> NoDup ps -> m_reset m = true -> m_grid m = Some gr ->
  doped_sheet ps gr ->
  apply_control s fuel m c g = (r, m', g', ts) ->
  exists gr', m_columns m' = m_columns m /\ m_rate_function m' = m_rate_function m /\
    m_reset m' = true /\ m_grid m' = Some gr' /\ doped_sheet ps gr' /\
    chain hop gr (map snd ts) /\ gr' = last (map snd ts) gr.
Proof.
  intros H N Hr Hg D. unfold apply_control, reset_grid. rewrite Hr, Hg.
  intros E. injection E as Er Em Eg Et. 
  destruct (loop_chain s fuel (m_rate_function m) (c_position c) (c_dwell c) 0%Z gr g) as [C L].
  rewrite Et in C. rewrite Et in L.
  destruct (chain_hops _ _ ps _ H N gr D C) as [C' D'].
  exists (last (map snd ts) gr). rewrite <- Em, L. simpl. rewrite Hr. repeat split; auto; apply D'.
Qed.

Lemma exposed_doped {G} (s : sampler G) m m' ps gr :
  exposed s m m' -> hopping (m_rate_function m) -> NoDup ps -> m_reset m = true -> m_grid m = Some gr ->
  doped_sheet ps gr ->
  exists gr', m_columns m' = m_columns m /\ m_rate_function m' = m_rate_function m /\
    m_reset m' = true /\ m_grid m' = Some gr' /\ doped_sheet ps gr'.
Proof.
  intros X H N Hr Hg D. induction X as [m|m m1 m2 fuel c g r g' ts X IH E].
  - exists gr. auto.
  - destruct (IH H Hr Hg) as (gr1 & C1 & R1 & S1 & G1 & D1).
    rewrite <- R1 in H.
    destruct (apply_control_hops s fuel m1 c g ps gr1 r m2 g' ts H N S1 G1 D1 E) as (gr2 & C2 & R2 & S2 & G2 & D2 & _).
    exists gr2. repeat split; try congruence; apply D2.
Qed.

(** the shipped rate functions never make an exposure raise *)
Lemma pristine_well_behaved knn fn pos ps :
  knn_ok knn -> NoDup ps -> (4 <= length ps)%nat ->
  (forall g si idx, length (positions g) = length ps ->
     (forall i, In i idx -> (i < length ps)%nat) ->
     exists preds, fn g pos si idx = Ok preds /\ length preds = length idx /\ Forall (fun x => 0 <= x) preds) ->
  well_behaved (pristine_rate_predictor knn fn) pos (doped_sheet ps).
Proof.
  intros K N L F g (P & s & D).
  destruct (single_doped_pos _ _ D) as [si E].
  assert (N' : NoDup (positions g)) by (rewrite P; auto).
  assert (L' : (4 <= length (positions g))%nat) by (rewrite P; auto).
  destruct (pristine_general knn fn g pos s si K D N' E L') as (idx & T & H & _).
  destruct (F g si idx) as (preds & Ef & Lp & Np).
  { rewrite P; auto. }
  { intros i Hi. destruct (tn_in _ _ _ T i Hi) as [q Hq]. apply nth_error_lt in Hq. rewrite P in Hq. auto. }
  destruct (proj1 (H preds Ef)) as (rs & Er & Rf).
  { rewrite Lp, (tn_length _ _ _ T). split; auto. eapply Forall_impl; [|exact Np].
    intros x Hx. apply f32_nonneg; auto. }
  exists rs. split; auto. split.
  - apply length3_not_nil. rewrite (proj1 Rf). apply (tn_length _ _ _ T).
  - intros g' r Hin. split.
    + eapply hop_doped; [|eapply rates_for_hop; eauto]. split; eauto.
    + eapply pristine_nonneg; eauto. apply D.
Qed.

Lemma simple_nonneg g pos si idx n :
  length (positions g) = n -> (forall i, In i idx -> (i < n)%nat) ->
  exists preds, simple_canonical_rate_function g pos si idx = Ok preds /\ length preds = length idx /\
    Forall (fun x => 0 <= x) preds.
Proof.
  intros <- H. destruct (simple_canonical_ok g pos si idx H) as (rs & E & L & K).
  exists rs. repeat split; auto. apply Forall_forall. intros x Hx. apply In_nth_error in Hx. destruct Hx as [k Hk].
  destruct (K k x Hk) as (i & p & _ & _ & ->). pose proof (simple_rate_range pos si p). lra.
Qed.

Lemma human_prior_nonneg g pos si idx n :
  length (positions g) = n -> (forall i, In i idx -> (i < n)%nat) ->
  exists preds, human_prior_default g pos si idx = Ok preds /\ length preds = length idx /\
    Forall (fun x => 0 <= x) preds.
Proof.
  intros <- H. unfold human_prior_default, human_prior_predict, positions_at.
  destruct (take_idx_Some (positions g) idx H) as (ps & E & L). rewrite E. cbn [bind].
  eexists. split; [reflexivity|]. split; [rewrite map_length; auto|].
  apply Forall_forall. intros x Hx. apply in_map_iff in Hx. destruct Hx as (p & <- & _).
  pose proof (human_prior_range pos si p). lra.
Qed.

(** with nearby atoms the simple rates do not underflow *)
Lemma simple_positive knn pos ps : knn_ok knn -> NoDup ps ->
  (forall p, In p ps -> pdist pos p <= 1000) ->
  forall g rs, doped_sheet ps g -> pristine_rate_predictor knn simple_canonical_rate_function g pos = Ok rs ->
  0 < total_rate rs.
Proof.
  intros K N F g rs (P & s & D) E.
  pose proof (pristine_hopping knn simple_canonical_rate_function K g s pos rs D ltac:(rewrite P; auto) E) as [Nn _].
  pose proof (pristine_nonneg _ _ _ _ _ (proj1 D) E) as Nng.
  apply pristine_Ok_inv in E. destruct E as (si & idx & preds & Es & En & Ef & Lp & Np & Rf).
  specialize (Rf (proj1 D)). destruct rs as [|[g' r] rs]; [congruence|].
  destruct (proj2 Rf 0%nat g' r eq_refl) as (i & x & Hi & Hx & -> & _).
  assert (0 <= total_rate rs).
  { apply total_nonneg. intros a b Hab. apply (Nng a b). right; auto. }
  unfold total_rate in *; simpl. 
  assert (0 < f32 x); [|lra].
  unfold simple_canonical_rate_function in Ef. unfold positions_at in Ef.
  destruct (take_idx (positions g) idx) as [nbs|] eqn:Et; [|discriminate]. cbn [bind] in Ef. inversion Ef; subst preds.
  apply nth_error_map_Some in Hx. destruct Hx as (p & Hp & ->).
  rewrite (take_idx_nth _ _ _ _ Et), Hi in Hp. apply nth_error_In in Hp. rewrite P in Hp. specialize (F p Hp).
  rewrite simple_rate_dist. pose proof (pdist_nonneg pos p).
  set (d := pdist pos p) in *.
  apply Rlt_le_trans with (f32 (bpow radix2 (-30))).
  - unfold f32. rewrite round_generic; [apply bpow_gt_0| |]; [auto with typeclass_instances|].
    apply generic_format_bpow. unfold FLT_exp. lia.
  - apply f32_mono. 
    assert (bpow radix2 (-30) = / 1073741824) as -> by (simpl; lra).
    unfold Rdiv. rewrite Rmult_1_l. apply Rinv_le_contravar; [nra|].
    assert (d / (142/100) <= 1000) by lra. assert (0 <= d / (142/100)) by lra.
    set (y := d / (142/100)) in *. nra.
Qed.

(** the sheet in the vocabulary of the specification *)
Lemma sheet_of_graphene n ps : sheet_of n ps -> graphene_sheet n ps.
Proof.
  intros (c & o & a & H1 & H2 & H3 & M & E).
  exists (generate_hexagonal_grid n), (psub o c), o, a.
  split; [apply sheet_NoDup|]. split; [apply sheet_In|].
  split; [|split; [apply Rabs_le; lra|split; [apply Rabs_le; lra|split; [exact H3|]]]].
  - rewrite E. apply map_ext. intros p. unfold place, rotate_rhs, turned, CARBON_BOND_DISTANCE_ANGSTROMS; simpl.
    apply pt_eq; simpl; ring.
  - rewrite M. unfold rotate_rhs, turned. apply pt_eq; simpl; ring.
Qed.

Lemma graphene_scaled t a p q :
  pdist (turned a (padd (pscale (142/100) p) t)) (turned a (padd (pscale (142/100) q) t)) =
  142 / 100 * pdist p q.
Proof.
  rewrite <- (place_dist pzero t a p q). f_equal; unfold turned, place, rotate_rhs, CARBON_BOND_DISTANCE_ANGSTROMS;
    apply pt_eq; simpl; ring.
Qed.

Lemma graphene_NoDup n ps : graphene_sheet n ps -> NoDup ps.
Proof.
  intros (sites & t & o & a & N & _ & -> & _). apply NoDup_map_inj_in; auto.
  intros p q _ _ E. apply pdist_zero. pose proof (graphene_scaled t a p q) as D.
  rewrite E, pdist_self in D. lra.
Qed.

Lemma graphene_spacing n ps p q : graphene_sheet n ps -> In p ps -> In q ps -> p <> q ->
  142 / 100 <= pdist p q.
Proof.
  intros (sites & t & o & a & N & I & -> & _) Hp Hq D.
  apply in_map_iff in Hp, Hq. destruct Hp as (p' & <- & Hp), Hq as (q' & <- & Hq).
  rewrite graphene_scaled. apply I in Hp, Hq.
  assert (1 <= pdist p' q'); [|lra]. apply (sheet_separated n).
  - apply sheet_In; auto.
  - apply sheet_In; auto.
  - congruence.
Qed.

(** every site with all its lattice neighbours on the sheet has exactly three
    neighbours at one bond length *)
Lemma on_sheet_interior n x y : on_sheet n x y ->
  (forall x' y', honeycomb x' y' -> pdist (site x y) (site x' y') = 1 -> on_sheet n x' y') ->
  three_at (generate_hexagonal_grid n) 1 (site x y).
Proof.
  intros S H.
  assert (K : forall x' y', honeycomb x' y' ->
     ((x - x') * (x - x') + 3 * ((y - y') * (y - y')) = 4)%Z -> on_sheet n x' y').
  { intros x' y' Hh Hd. apply H; auto. apply dist_eq_1; auto. }
  destruct S as ((Pe & Pm) & Sx & Sy & St).
  assert (Ev : forall k l, Z.even (k + l) = true -> Z.even (x + k + (y + l)) = true).
  { intros k l X. replace (x + k + (y + l))%Z with (x + y + (k + l))%Z by ring. rewrite Z.even_add, Pe, X. reflexivity. }
  assert (M3 : (x mod 3 = 1 \/ x mod 3 = 2)%Z) by (pose proof (Z.mod_pos_bound x 3); lia).
  set (e := (if Z.eqb (x mod 3) 2 then 1 else -1)%Z).
  assert (He : ((x mod 3 = 2 /\ e = 1) \/ (x mod 3 = 1 /\ e = -1))%Z).
  { unfold e. destruct (Z.eqb_spec (x mod 3) 2); lia. }
  assert (Ha : honeycomb (x + 2 * e) (y + 0)).
  { split; [apply Ev; unfold e; destruct (Z.eqb _ _); reflexivity|].
    pose proof (Z.div_mod x 3). pose proof (Z.div_mod (x + 2 * e) 3). pose proof (Z.mod_pos_bound (x + 2 * e) 3). lia. }
  assert (Hb : honeycomb (x + - e) (y + 1)).
  { split; [apply Ev; unfold e; destruct (Z.eqb _ _); reflexivity|].
    pose proof (Z.div_mod x 3). pose proof (Z.div_mod (x + - e) 3). pose proof (Z.mod_pos_bound (x + - e) 3). lia. }
  assert (Hc : honeycomb (x + - e) (y + -1)).
  { split; [apply Ev; unfold e; destruct (Z.eqb _ _); reflexivity|].
    pose proof (Z.div_mod x 3). pose proof (Z.div_mod (x + - e) 3). pose proof (Z.mod_pos_bound (x + - e) 3). lia. }
  assert (Da : ((x - (x + 2 * e)) * (x - (x + 2 * e)) + 3 * ((y - (y + 0)) * (y - (y + 0))) = 4)%Z) by (destruct He as [[_ ->]|[_ ->]]; ring).
  assert (Db : ((x - (x + - e)) * (x - (x + - e)) + 3 * ((y - (y + 1)) * (y - (y + 1))) = 4)%Z) by (destruct He as [[_ ->]|[_ ->]]; ring).
  assert (Dc : ((x - (x + - e)) * (x - (x + - e)) + 3 * ((y - (y + -1)) * (y - (y + -1))) = 4)%Z) by (destruct He as [[_ ->]|[_ ->]]; ring).
  exists (site (x + 2 * e) (y + 0)), (site (x + - e) (y + 1)), (site (x + - e) (y + -1)).
  split; [apply sheet_In; do 2 eexists; split; [reflexivity|apply K; auto]|].
  split; [apply sheet_In; do 2 eexists; split; [reflexivity|apply K; auto]|].
  split; [apply sheet_In; do 2 eexists; split; [reflexivity|apply K; auto]|].
  split; [intros X; apply site_inj in X; lia|].
  split; [intros X; apply site_inj in X; lia|].
  split; [intros X; apply site_inj in X; lia|].
  split; [apply dist_eq_1; auto|]. split; [apply dist_eq_1; auto|]. split; [apply dist_eq_1; auto|].
  intros q Hq. apply sheet_In in Hq. destruct Hq as (x' & y' & -> & (Hh & _)).
  destruct (Z.eq_dec ((x - x') * (x - x') + 3 * ((y - y') * (y - y'))) 4) as [E4|N4].
  - pose proof (neighbour_class x y x' y' (conj Pe Pm) Hh E4) as C.
    destruct He as [[M E1]|[M E1]]; rewrite E1;
      (destruct C as [[C [[-> ->]|[-> [-> | ->]]]]|[C [[-> ->]|[-> [-> | ->]]]]]; try (rewrite M in C; discriminate);
       [ right; left | right; right; left | right; right; right; left ]; f_equal; lia).
  - destruct (Z.eq_dec x x') as [->|Nx]; [destruct (Z.eq_dec y y') as [->|Ny]; [left; reflexivity|]|];
      (right; right; right; right; apply dist_gt_1;
       match goal with |- (4 < ?t)%Z => assert (4 <= t)%Z; [|lia] end; apply site_separated; auto; congruence || (split; assumption)).
Qed.
