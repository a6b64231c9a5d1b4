(** The canonical sheet, small facts about sheet sizes, and equality of
    mixtures. *)
From Coq Require Import Reals ZArith List Bool Arith Lia Lra.
From Flocq Require Import Core.
From Verif Require Import Base.Prelude Base.Rounding Base.Random Model.Constants
  Model.Geometry Model.MicroscopeUtils Model.Graphene Spec.Grids Spec.Lattice Spec.Material Spec.MaterialRuns
  Spec.Neighbours
  Proofs.BaseFacts Proofs.RoundingFacts Proofs.FovFacts Proofs.GeometryFacts Proofs.MaterialFacts
  Proofs.RateFacts Proofs.GaussianFacts Proofs.ExposureFacts Proofs.LatticeFacts Proofs.SheetFacts.
Import ListNotations.
Open Scope R_scope.

Lemma pmean_sub l c : l <> [] -> pmean (map (fun p => psub p c) l) = psub (pmean l) c.
Proof.
  intros N. rewrite (map_ext _ (fun p => padd p (pneg c))) by (intros; apply pt_eq; simpl; ring).
  rewrite pmean_map_add by auto. apply pt_eq; simpl; ring.
Qed.

Lemma psq_nth (l : list pt) : forall k x, nth_error l k = Some x -> nth k (map psq l) 0 = psq x.
Proof. intros k x Hk. apply nth_error_nth_default. apply nth_error_map_Some. eauto. Qed.

Lemma canonical_ok n : (2 <= n)%nat ->
  exists gr i sites c, canonical_pristine_graphene n = Ok gr /\ single_doped gr i /\
    nth_error (positions gr) i = Some pzero /\
    NoDup sites /\ (forall p, In p sites <-> exists x y, p = site x y /\ on_sheet n x y) /\
    In c sites /\ positions gr = map (fun p => pscale (142/100) (psub p c)) sites /\
    (forall q, In q (positions gr) -> pdist pzero (pmean (positions gr)) <= pdist q (pmean (positions gr))).
Proof.
  intros L. unfold canonical_pristine_graphene.
  set (ps0 := map (pscale CARBON_BOND_DISTANCE_ANGSTROMS) (generate_hexagonal_grid n)).
  assert (N0 : ps0 <> []).
  { unfold ps0. intros X. apply map_eq_nil in X. apply sheet_empty in X. lia. }
  assert (R0 : forall p, rotate_rhs p 0 = p).
  { intros p. unfold rotate_rhs. rewrite cos_0, sin_0. apply pt_eq; simpl; ring. }
  rewrite (map_ext _ (fun p => p)) by exact R0. rewrite map_id.
  set (ps := centered ps0).
  assert (Np : ps <> []).
  { unfold ps, centered. intros X. apply map_eq_nil in X. auto. }
  destruct (argmin (map psq ps)) as [i|] eqn:Ea.
  2:{ exfalso. apply argmin_None in Ea. apply map_eq_nil in Ea. auto. }
  apply argmin_spec in Ea. destruct Ea as (Li & Mi & _). rewrite map_length in *.
  destruct (nth_error ps i) as [c|] eqn:Ec.
  2:{ apply nth_error_None in Ec. lia. }
  unfold ps, centered, ps0 in Ec. rewrite map_map in Ec.
  apply nth_error_map_Some in Ec. destruct Ec as (c0 & Hc0 & Ec).
  exists (mkgrid (map (fun p => psub p c) ps) (upd (map (fun _ => CARBON) ps) i SILICON)), i,
     (generate_hexagonal_grid n), c0.
  split; [reflexivity|].
  split; [apply carbon_upd_doped; [apply map_length|auto]|].
  assert (Pe : map (fun p => psub p c) ps = map (fun p => pscale (142/100) (psub p c0)) (generate_hexagonal_grid n)).
  { unfold ps, centered, ps0. rewrite !map_map. apply map_ext. intros p. rewrite Ec.
    unfold CARBON_BOND_DISTANCE_ANGSTROMS. apply pt_eq; simpl; ring. }
  split.
  { simpl. rewrite Pe. erewrite map_nth_error by exact Hc0. f_equal. apply pt_eq; simpl; ring. }
  split; [apply sheet_NoDup|]. split; [apply sheet_In|].
  split; [eapply nth_error_In; eauto|]. split; [exact Pe|].
  simpl. rewrite pmean_sub by auto.
  assert (M0 : pmean ps = pzero).
  { unfold ps, centered. rewrite pmean_sub by auto. apply pt_eq; simpl; ring. }
  rewrite M0. intros q Hq. apply in_map_iff in Hq. destruct Hq as (p & <- & Hp).
  apply In_nth_error in Hp. destruct Hp as (j & Hj).
  assert (Hci : nth_error ps i = Some c).
  { unfold ps, centered, ps0. rewrite map_map. rewrite Ec. apply nth_error_map_Some. eauto. }
  specialize (Mi j (nth_error_lt _ _ _ Hj)). rewrite (psq_nth _ _ _ Hci), (psq_nth _ _ _ Hj) in Mi.
  apply pdist_le_psq.
  replace (psub pzero (psub pzero c)) with c by (apply pt_eq; simpl; ring).
  replace (psub (psub p c) (psub pzero c)) with p by (apply pt_eq; simpl; ring). exact Mi.
Qed.

Lemma canonical_fails n : (n <= 1)%nat -> canonical_pristine_graphene n = Raise ValueError.
Proof.
  intros L. unfold canonical_pristine_graphene. apply sheet_empty in L. rewrite L. reflexivity.
Qed.

(** sheets with at least three columns have at least four atoms *)
Lemma sheet_four n : (3 <= n)%nat -> (4 <= length (generate_hexagonal_grid n))%nat.
Proof.
  intros L.
  pose proof sqrt3_pos as P3. pose proof sqrt3_sq as S3.
  assert (B : sqrt 3 <= 2) by nra.
  assert (Ln : 3 <= INR n) by (apply le_INR in L; simpl in L; lra).
  assert (I : incl [site 2 0; site 4 0; site 1 1; site 5 1] (generate_hexagonal_grid n)).
  { intros p Hp. apply sheet_In. simpl in Hp.
    assert (T : forall x y, honeycomb x y -> (0 <= x < 6)%Z -> (0 <= y <= 1)%Z -> on_sheet n x y).
    { intros x y H1 H2 H3. split; [exact H1|]. split; [lia|]. split; [lia|].
      assert (IZR y <= 1) by (apply IZR_le; lia). assert (0 <= IZR y) by (apply IZR_le; lia). nra. }
    destruct Hp as [<-|[<-|[<-|[<-|[]]]]]; do 2 eexists; (split; [reflexivity|]); apply T; try lia; (split; [reflexivity|discriminate]). }
  assert (ND : NoDup [site 2 0; site 4 0; site 1 1; site 5 1]).
  { repeat constructor; simpl; intros X; repeat (destruct X as [X|X]; [apply site_inj in X; lia|]); auto. }
  apply (NoDup_incl_length ND I).
Qed.

Lemma graphene_four n ps : graphene_sheet n ps -> (3 <= n)%nat -> (4 <= length ps)%nat.
Proof.
  intros (sites & t & o & a & N & I & -> & _) L. rewrite map_length.
  assert (length sites = length (generate_hexagonal_grid n)).
  { apply Nat.le_antisymm; apply NoDup_incl_length; auto; try apply sheet_NoDup;
      intros p Hp; [apply sheet_In, I|apply I, sheet_In]; auto. }
  pose proof (sheet_four n L). lia.
Qed.

(** gmm_eq *)
Lemma far_false x y : far x y = false <-> near x y.
Proof. unfold far, near. apply Rltb_false. Qed.

Lemma gmm_eq_spec a b : gmm_eq a b = true <->
  near (gmm_max_rate a) (gmm_max_rate b) /\
  Forall2 near_component (gmm_components a) (gmm_components b).
Proof.
  unfold gmm_eq. destruct (length (gmm_components a) =? length (gmm_components b))%nat eqn:El; simpl.
  2:{ apply Nat.eqb_neq in El. split; [discriminate|]. intros [_ F]. apply Forall2_len in F. contradiction. }
  apply Nat.eqb_eq in El.
  destruct (far (gmm_max_rate a) (gmm_max_rate b)) eqn:Ef.
  { split; [discriminate|]. intros [N _]. apply far_false in N. congruence. }
  apply far_false in Ef. rewrite negb_true_iff. rewrite <- not_true_iff_false, existsb_exists.
  revert El. generalize (gmm_components a) (gmm_components b). intros l; induction l as [|x l IH]; intros [|y l'] L; simpl in *; try discriminate.
  { split; [intros _; split; auto|]. intros _ (z & [] & _). }
  assert (C : ((far (mix_weight x) (mix_weight y) || far (mix_loc x) (mix_loc y)
     || far (fst (mix_var x)) (fst (mix_var y)) || far (snd (mix_var x)) (snd (mix_var y))) = false <-> near_component x y)).
  { rewrite !orb_false_iff, !far_false. unfold near_component. tauto. }
  injection L as L. specialize (IH l' L). split.
  - intros H. split; auto. constructor.
    + apply C. apply not_true_iff_false. intros T. apply H. exists (x, y). auto.
    + apply IH. intros (z & Hz & T). apply H. eauto.
  - intros [_ F]. inversion F; subst. intros (z & [<-|Hz] & T); simpl in T.
    + apply C in H2. congruence.
    + apply IH; eauto.
Qed.
