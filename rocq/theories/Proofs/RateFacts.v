(** Lemmas about the shipped rate functions. *)
From Coq Require Import Reals ZArith List Bool Arith Lia Lra.
From Flocq Require Import Core.
From Verif Require Import Base.Prelude Base.Matrix Base.Rounding Base.Random Model.Constants
  Model.Geometry Model.MicroscopeUtils Model.Graphene Spec.Grids Spec.Neighbours Spec.Material Spec.MaterialRuns
  Proofs.BaseFacts Proofs.RoundingFacts Proofs.FovFacts Proofs.GeometryFacts Proofs.NeighbourFacts
  Proofs.MaterialFacts.
Import ListNotations.
Open Scope R_scope.

(** * PristineSingleSiGrRatePredictor *)

Lemma forallb_f32_nonneg preds :
  forallb (fun r => Rleb 0 r) (map f32 preds) = true <-> Forall (fun x => 0 <= f32 x) preds.
Proof.
  rewrite forallb_forall, Forall_forall. split.
  - intros H x Hx. apply Rleb_true. apply H. apply in_map. auto.
  - intros H x Hx. apply in_map_iff in Hx. destruct Hx as (y & <- & Hy). apply Rleb_true. auto.
Qed.

Lemma rates_for_f32 g idx l rs : 
  length rs = length idx /\
  (forall k g' r, nth_error rs k = Some (g', r) ->
     exists i a, nth_error idx k = Some i /\ nth_error (map f32 l) k = Some a /\ r = a /\
       positions g' = positions g /\ single_doped g' i) ->
  rates_for g idx l rs.
Proof.
  intros (L & K). split; auto. intros k g' r Hk. destruct (K k g' r Hk) as (i & a & Hi & Ha & -> & P & D).
  apply nth_error_map_Some in Ha. destruct Ha as (x & Hx & ->). exists i, x. auto.
Qed.

Lemma pristine_general knn fn g beam s si :
  knn_ok knn -> single_doped g s -> NoDup (positions g) -> nth_error (positions g) s = Some si ->
  (4 <= length (positions g))%nat ->
  exists idx, three_nearest (positions g) s idx /\
    (forall preds, fn g beam si idx = Ok preds ->
       ((length preds = 3%nat /\ Forall (fun x => 0 <= f32 x) preds ->
         exists rs, pristine_rate_predictor knn fn g beam = Ok rs /\ rates_for g idx preds rs) /\
        (length preds <> 3%nat \/ ~ Forall (fun x => 0 <= f32 x) preds ->
         pristine_rate_predictor knn fn g beam = Raise AssertionError))) /\
    (forall e, fn g beam si idx = Raise e -> pristine_rate_predictor knn fn g beam = Raise e).
Proof.
  intros K D N E L. destruct (neighbours_found knn g s si K D N E) as (_ & H).
  destruct (H L) as (idx & En & T & R). exists idx. split; [auto|].
  pose proof (single_silicon_single g s si D E) as Es.
  pose proof (tn_length _ _ _ T) as L3.
  unfold pristine_rate_predictor. rewrite Es. cbn [bind]. rewrite En. cbn [bind].
  split.
  - intros preds Ef. rewrite Ef. cbn [bind].
    destruct (forallb (fun r => Rleb 0 r) (map f32 preds)) eqn:Ep.
    + apply forallb_f32_nonneg in Ep. cbn [negb].
      rewrite map_length, L3. destruct (Nat.eqb_spec (length preds) 3) as [P3|P3]; cbn [negb].
      * split; [|intros [?|?]; contradiction].
        intros _. destruct (successors_total g (fun r => r) idx (map f32 preds) R) as [rs Er].
        exists rs. split; [exact Er|]. apply rates_for_f32.
        destruct D as (W & _). 
        apply (successors_spec g (fun r => r) idx (map f32 preds) rs W Er). rewrite map_length. congruence.
      * split; [intros [? _]; contradiction|auto].
    + cbn [negb]. split; [|auto]. intros [_ P]. apply forallb_f32_nonneg in P. congruence.
  - intros e Ef. rewrite Ef. reflexivity.
Qed.

Lemma pristine_Ok_inv knn fn g beam rs :
  pristine_rate_predictor knn fn g beam = Ok rs ->
  exists si idx preds, get_single_silicon_position g = Ok si /\
    nearest_neighbors3 knn (positions g) si false = Ok idx /\
    fn g beam si idx = Ok preds /\ length preds = length idx /\
    Forall (fun x => 0 <= f32 x) preds /\ (wf_grid g -> rates_for g idx preds rs).
Proof.
  unfold pristine_rate_predictor. intros H.
  destruct (get_single_silicon_position g) as [si| |] eqn:Es; try discriminate. cbn [bind] in H.
  destruct (nearest_neighbors3 knn (positions g) si false) as [idx| |] eqn:En; try discriminate. cbn [bind] in H.
  destruct (fn g beam si idx) as [preds| |] eqn:Ef; try discriminate. cbn [bind] in H.
  exists si, idx, preds.
  destruct (forallb (fun r => Rleb 0 r) (map f32 preds)) eqn:Ep; cbn [negb] in H; try discriminate.
  rewrite map_length in H. destruct (Nat.eqb_spec (length preds) (length idx)) as [P|P]; cbn [negb] in H; try discriminate.
  repeat split; auto.
  - apply forallb_f32_nonneg; auto.
  - apply (successors_spec g (fun r => r) idx (map f32 preds) rs); auto. rewrite map_length; congruence.
  - intros k g' r Hk. refine (proj2 (rates_for_f32 g idx preds rs _) k g' r Hk).
    apply (successors_spec g (fun r => r) idx (map f32 preds) rs); auto. rewrite map_length; congruence.
Qed.

Lemma rates_for_hop g s idx preds rs : single_doped g s -> three_nearest (positions g) s idx ->
  rates_for g idx preds rs -> forall g' r, In (g', r) rs -> hop g g'.
Proof.
  intros D T (L & K) g' r H. apply In_nth_error in H. destruct H as [k Hk].
  destruct (K k g' r Hk) as (i & x & Hi & Hx & -> & P & D'). split; auto.
  exists s, i, idx. repeat split; auto; try apply D; try apply D'; try apply T. apply nth_error_In in Hi; auto.
Qed.

Lemma length3_not_nil {A} (l : list A) : length l = 3%nat -> l <> [].
Proof. destruct l; [discriminate|congruence]. Qed.

Lemma pristine_hopping knn fn : knn_ok knn -> hopping (pristine_rate_predictor knn fn).
Proof.
  intros K g s beam rs D N H.
  apply pristine_Ok_inv in H. destruct H as (si & idx & preds & Es & En & Ef & Lp & Np & Rf).
  destruct (single_doped_pos _ _ D) as [p Hp].
  pose proof (single_silicon_single g s p D Hp) as Es'. assert (si = p) by congruence. subst p.
  destruct (neighbours_found knn g s si K D N Hp) as (H1 & H2).
  destruct (Nat.lt_ge_cases (length (positions g)) 4) as [L|L].
  - rewrite (H1 L) in En. discriminate.
  - destruct (H2 L) as (idx' & En' & T & _). assert (idx' = idx) by congruence. subst idx'.
    specialize (Rf (proj1 D)). split.
    + apply length3_not_nil. rewrite (proj1 Rf). apply (tn_length _ _ _ T).
    + eapply rates_for_hop; eauto.
Qed.

Lemma pristine_nonneg knn fn g beam rs : wf_grid g -> pristine_rate_predictor knn fn g beam = Ok rs ->
  forall g' r, In (g', r) rs -> 0 <= r /\ f32 r = r.
Proof.
  intros W H g' r Hin. apply pristine_Ok_inv in H. destruct H as (si & idx & preds & Es & En & Ef & Lp & Np & Rf).
  specialize (Rf W). destruct Rf as (L & K). apply In_nth_error in Hin. destruct Hin as [k Hk].
  destruct (K k g' r Hk) as (i & x & Hi & Hx & -> & _).
  rewrite Forall_forall in Np. split; [apply Np; apply nth_error_In in Hx; auto|apply f32_idem].
Qed.

(** errors *)
Lemma pristine_no_silicon knn fn g beam : wf_grid g ->
  ~ (exists p, In (p, 14%Z) (atoms g)) ->
  pristine_rate_predictor knn fn g beam = Raise SiliconNotFoundError.
Proof.
  intros W H. apply single_silicon_raise in H; auto. unfold pristine_rate_predictor. rewrite H. reflexivity.
Qed.

Lemma map_res_not_silicon {A} g (f : A -> R) l :
  map_res (fun ir =>
     bind (single_silicon_numbers (numbers g) (fst ir))
       (fun ns => Ok (mkgrid (positions g) ns, f (snd ir)))) l <> Raise SiliconNotFoundError.
Proof.
  induction l as [|x l IH]; simpl; [discriminate|].
  unfold single_silicon_numbers at 1. destruct (fst x <? length (numbers g))%nat; simpl; [|discriminate].
  destruct (map_res _ l); simpl; try discriminate. congruence.
Qed.

Lemma pristine_silicon_iff knn fn g beam : wf_grid g ->
  (forall si idx, fn g beam si idx <> Raise SiliconNotFoundError) ->
  (pristine_rate_predictor knn fn g beam = Raise SiliconNotFoundError <->
   ~ (exists p, In (p, 14%Z) (atoms g))).
Proof.
  intros W F. split; [|apply pristine_no_silicon; auto].
  unfold pristine_rate_predictor. intros H. apply single_silicon_raise; auto.
  destruct (get_single_silicon_position g) as [si|e|] eqn:Es; cbn [bind] in H; try congruence.
  exfalso. unfold nearest_neighbors3, kneighbors in H.
  destruct (length (positions g) <? 4)%nat; cbn [bind] in H; [discriminate|].
  destruct (fn g beam si _) as [preds|e|] eqn:Ef; cbn [bind] in H; try discriminate.
  - destruct (negb (forallb _ _)); [discriminate|]. destruct (negb _); [discriminate|].
    apply (map_res_not_silicon g (fun r => r)) in H. auto.
  - inversion H; subst. exact (F _ _ Ef).
Qed.

Lemma pristine_few_atoms knn fn g beam s : knn_ok knn -> single_doped g s -> NoDup (positions g) ->
  (length (positions g) < 4)%nat -> pristine_rate_predictor knn fn g beam = Raise ValueError.
Proof.
  intros K D N L. destruct (single_doped_pos _ _ D) as [p Hp].
  destruct (neighbours_found knn g s p K D N Hp) as (H1 & _).
  unfold pristine_rate_predictor. rewrite (single_silicon_single g s p D Hp). cbn [bind].
  rewrite (H1 L). reflexivity.
Qed.

(** * simple_canonical_rate_function *)

Lemma bond_pos : 0 < CARBON_BOND_DISTANCE_ANGSTROMS.
Proof. unfold CARBON_BOND_DISTANCE_ANGSTROMS. lra. Qed.

Lemma simple_rate_dist beam si nb :
  simple_rate beam si nb = 1 / ((4 * (pdist beam nb / (142/100))) ^ 2 + 1).
Proof.
  unfold simple_rate, CARBON_BOND_DISTANCE_ANGSTROMS.
  replace (psub (psub beam si) (psub nb si)) with (psub beam nb)
    by (apply pt_eq; simpl; ring).
  unfold pdist. f_equal. ring.
Qed.

Lemma simple_rate_range beam si nb : 0 < simple_rate beam si nb <= 1.
Proof.
  rewrite simple_rate_dist. set (x := 4 * _).
  assert (0 <= x ^ 2) by nra. split.
  - apply Rdiv_lt_0_compat; lra.
  - apply Rmult_le_reg_r with (x^2+1); [lra|]. field_simplify; lra.
Qed.

Lemma simple_rate_one beam si nb : simple_rate beam si nb = 1 <-> beam = nb.
Proof.
  rewrite simple_rate_dist. split.
  - intros H. apply pdist_zero. set (x := 4 * (pdist beam nb / (142/100))) in *.
    assert (x ^ 2 = 0). { assert (0 <= x ^ 2) by nra. apply (f_equal (fun y => y * (x^2+1))) in H.
      field_simplify in H; lra. }
    assert (x = 0) by nra. unfold x in *. lra.
  - intros ->. rewrite pdist_self. field.
Qed.

Lemma simple_rate_decreasing beam si nb beam' si' nb' :
  pdist beam nb < pdist beam' nb' <-> simple_rate beam' si' nb' < simple_rate beam si nb.
Proof.
  rewrite !simple_rate_dist.
  pose proof (pdist_nonneg beam nb). pose proof (pdist_nonneg beam' nb').
  set (x := 4 * (pdist beam nb / (142/100))). set (y := 4 * (pdist beam' nb' / (142/100))).
  assert (0 <= x) by (unfold x; lra). assert (0 <= y) by (unfold y; lra).
  assert (pdist beam nb < pdist beam' nb' <-> x < y) as -> by (unfold x, y; lra).
  split; intros Hxy.
  - unfold Rdiv. rewrite !Rmult_1_l. apply Rinv_lt_contravar; nra.
  - destruct (Rlt_le_dec x y); auto. exfalso.
    assert (1 / (x ^ 2 + 1) <= 1 / (y ^ 2 + 1)).
    { unfold Rdiv. rewrite !Rmult_1_l. apply Rinv_le_contravar; nra. }
    lra.
Qed.

Lemma simple_canonical_ok g beam si idx :
  (forall i, In i idx -> (i < length (positions g))%nat) ->
  exists rs, simple_canonical_rate_function g beam si idx = Ok rs /\ length rs = length idx /\
    forall k r, nth_error rs k = Some r ->
      exists i p, nth_error idx k = Some i /\ nth_error (positions g) i = Some p /\
        r = simple_rate beam si p.
Proof.
  intros H. unfold simple_canonical_rate_function, positions_at.
  destruct (take_idx_Some (positions g) idx H) as (ps & E & L). rewrite E. cbn [bind].
  eexists. split; [reflexivity|]. split; [rewrite map_length; auto|].
  intros k r Hk. apply nth_error_map_Some in Hk. destruct Hk as (p & Hp & ->).
  rewrite (take_idx_nth _ _ _ _ E) in Hp. destruct (nth_error idx k) as [i|] eqn:Ei; [|discriminate].
  exists i, p. auto.
Qed.

Lemma positions_at_oob g idx : ~ (forall i, In i idx -> (i < length (positions g))%nat) ->
  positions_at g idx = Raise IndexError.
Proof.
  intros H. unfold positions_at. destruct (take_idx (positions g) idx) as [ps|] eqn:E; auto.
  exfalso. apply H. intros i Hi. apply In_nth_error in Hi. destruct Hi as [k Hk].
  pose proof (take_idx_nth _ _ _ k E) as Ek. rewrite Hk in Ek.
  pose proof (take_idx_length _ _ _ E). assert (k < length ps)%nat.
  { rewrite H0. apply nth_error_lt in Hk; auto. }
  destruct (nth_error ps k) eqn:E2; [|apply nth_error_None in E2; lia].
  symmetry in Ek. apply nth_error_lt in Ek. auto.
Qed.

(** the shipped functions always come to an end *)
Lemma nn3_not_fuel knn pts q b : nearest_neighbors3 knn pts q b <> OutOfFuel.
Proof. unfold nearest_neighbors3, kneighbors. destruct (_ <? _)%nat; discriminate. Qed.
Lemma single_silicon_not_fuel g : get_single_silicon_position g <> OutOfFuel.
Proof.
  unfold get_single_silicon_position. destruct (get_silicon_positions g) as [|p [|q l]]; try discriminate.
  destruct (argmin _); [destruct (nth_error _ _)|]; discriminate.
Qed.
Lemma map_res_not_fuel {A B} (f : A -> res B) l : (forall x, f x <> OutOfFuel) -> map_res f l <> OutOfFuel.
Proof.
  intros H. induction l as [|x l IH]; simpl; [discriminate|].
  specialize (H x). destruct (f x); simpl; try congruence. destruct (map_res f l); simpl; congruence.
Qed.
Lemma successors_not_fuel {A} g (h : A -> R) (l : list (nat * A)) :
  map_res (fun ir => bind (single_silicon_numbers (numbers g) (fst ir))
       (fun ns => Ok (mkgrid (positions g) ns, h (snd ir)))) l <> OutOfFuel.
Proof.
  apply map_res_not_fuel. intros x. unfold single_silicon_numbers.
  destruct (_ <? _)%nat; discriminate.
Qed.
Lemma pristine_not_fuel knn fn g beam : (forall si idx, fn g beam si idx <> OutOfFuel) ->
  pristine_rate_predictor knn fn g beam <> OutOfFuel.
Proof.
  intros H. unfold pristine_rate_predictor.
  pose proof (single_silicon_not_fuel g). destruct (get_single_silicon_position g) as [si| |]; simpl; try congruence.
  pose proof (nn3_not_fuel knn (positions g) si false). destruct (nearest_neighbors3 _ _ _ _) as [idx| |]; simpl; try congruence.
  specialize (H si idx). destruct (fn g beam si idx); simpl; try congruence.
  destruct (negb _); [discriminate|]. destruct (negb _); [discriminate|]. apply (successors_not_fuel g (fun r => r)).
Qed.
Lemma simple_not_fuel g beam si idx : simple_canonical_rate_function g beam si idx <> OutOfFuel.
Proof.
  unfold simple_canonical_rate_function, positions_at. destruct (take_idx _ _); discriminate.
Qed.
Lemma human_prior_not_fuel mean cov mr g beam si idx : human_prior_predict mean cov mr g beam si idx <> OutOfFuel.
Proof. unfold human_prior_predict, positions_at. destruct (take_idx _ _); discriminate. Qed.

Lemma nth_error_ext' {A} (l l' : list A) : (forall k, nth_error l k = nth_error l' k) -> l = l'.
Proof.
  revert l'. induction l as [|x l IH]; intros [|y l'] H; auto; try (specialize (H 0%nat); discriminate).
  f_equal; [specialize (H 0%nat); simpl in H; congruence|apply IH; intros k; apply (H (S k))].
Qed.
Lemma rates_for_total g idx preds rs : length preds = length idx -> rates_for g idx preds rs ->
  total_rate rs = rsum (map f32 preds).
Proof.
  intros L (Lr & H). unfold total_rate. f_equal. apply nth_error_ext'. intros k. rewrite !nth_error_map.
  destruct (nth_error rs k) as [[g' r]|] eqn:E.
  - destruct (H k g' r E) as (i & pr & _ & Hp & -> & _). rewrite Hp. reflexivity.
  - apply nth_error_None in E. assert (X : nth_error preds k = None) by (apply nth_error_None; lia). rewrite X. reflexivity.
Qed.
