(** Property C37: feature vectors. *)
From Coq Require Import Reals ZArith List Bool Lia Lra Arith.
From Verif Require Import Base.Prelude Base.Rounding Base.Random Model.Constants Model.Geometry Model.MicroscopeUtils
  Model.Graphene Model.Goals Model.FeatureConstructors Spec.Grids Spec.Neighbours Spec.Material Spec.Acting
  Proofs.BaseFacts Proofs.RoundingFacts Proofs.FovFacts Proofs.GeometryFacts Proofs.NeighbourFacts Proofs.MaterialFacts
  Proofs.ActingFacts.
Import ListNotations.
Open Scope R_scope.

Lemma four_knn knn pts q : knn_ok knn -> (4 <= length pts)%nat ->
  exists idx, kneighbors knn 4 pts q = Ok idx /\ (forall i, In i (tl idx) -> (i < length pts)%nat) /\ length (tl idx) = 3%nat.
Proof.
  intros K L. unfold kneighbors. rewrite (proj2 (Nat.ltb_ge _ _)) by lia. eexists. split; [reflexivity|].
  pose proof (knn_length _ K 4 pts q L) as E. split.
  - intros i Hi. apply (knn_range _ K 4 pts q i L). destruct (knn 4%nat pts q); [inversion Hi|right; exact Hi].
  - destruct (knn 4%nat pts q); simpl in *; lia.
Qed.

Lemma goal_delta_lone gr f goal si : wf_grid gr -> lone_silicon gr si ->
  get_silicon_goal_delta gr f goal = Ok (psub (goal_position goal) (at_relative f si)).
Proof.
  intros W L. apply lone_silicon_iff in L; auto. unfold get_silicon_goal_delta. rewrite L, to_material_pt_eq. reflexivity.
Qed.
Lemma goal_delta_several gr f goal : wf_grid gr -> count_number 14 gr <> 1%nat ->
  get_silicon_goal_delta gr f goal = Raise ValueError.
Proof.
  intros W L. rewrite <- silicon_positions_length in L by auto. unfold get_silicon_goal_delta.
  destruct (get_silicon_positions gr) as [|a [|b l]]; auto. simpl in L. lia.
Qed.
Lemma lone_exists gr : wf_grid gr -> count_number 14 gr = 1%nat -> exists si, lone_silicon gr si.
Proof.
  intros W C. rewrite <- silicon_positions_length in C by auto.
  destruct (get_silicon_positions gr) as [|a [|b l]] eqn:E; try discriminate. exists a. apply lone_silicon_iff; auto.
Qed.
Lemma grid_to_material_eq f gr : grid_to_material f gr = mkgrid (map (at_relative f) (positions gr)) (numbers gr).
Proof. unfold grid_to_material, grid_map_pos. f_equal. apply map_ext. apply to_material_pt_eq. Qed.
Lemma material_lone f gr si : wf_grid gr -> lone_silicon gr si ->
  lone_silicon (mkgrid (map (at_relative f) (positions gr)) (numbers gr)) (at_relative f si).
Proof.
  intros W [C I]. split; [exact C|]. unfold atoms in *. cbn [positions numbers]. rewrite combine_map_l.
  apply in_map_iff. exists (si, 14%Z). auto.
Qed.
Lemma material_wf f gr : wf_grid gr -> wf_grid (mkgrid (map (at_relative f) (positions gr)) (numbers gr)).
Proof. unfold wf_grid. cbn. rewrite map_length. auto. Qed.

(** three points of a list *)
Lemma three_taken (pts : list pt) idx : length idx = 3%nat -> (forall i, In i idx -> (i < length pts)%nat) ->
  exists n1 n2 n3, take_idx pts idx = Some [n1; n2; n3].
Proof.
  intros L H. destruct (take_idx_Some pts idx H) as (r & E & Lr). rewrite L in Lr.
  destruct r as [|n1 [|n2 [|n3 [|n4 r]]]]; try discriminate. eauto.
Qed.

(** ** The microscope-frame features: silicon position, unit vectors to its
    three nearest atoms, and the vector to the goal in angstroms, all rounded
    to float32 *)
Theorem pristine_layout : forall knn o goal k si, knn_ok knn -> wf_grid (o_grid o) ->
  lone_silicon (o_grid o) si -> nth_error (positions (o_grid o)) k = Some si ->
  (forall j, nth_error (positions (o_grid o)) j = Some si -> j = k) ->
  (4 <= length (positions (o_grid o)))%nat ->
  exists idx n1 n2 n3, three_nearest (positions (o_grid o)) k idx /\
    take_idx (positions (o_grid o)) idx = Some [n1; n2; n3] /\
    fc_get_features (pristine_features knn) o goal = Ok (map f32
      [px si; py si;
       (px n1 - px si) / pdist n1 si; (py n1 - py si) / pdist n1 si;
       (px n2 - px si) / pdist n2 si; (py n2 - py si) / pdist n2 si;
       (px n3 - px si) / pdist n3 si; (py n3 - py si) / pdist n3 si;
       px (goal_position goal) - px (at_relative (o_fov o) si);
       py (goal_position goal) - py (at_relative (o_fov o) si)]) /\
    (forall n, In n [n1; n2; n3] ->
       pnorm (mkpt ((px n - px si) / pdist n si) ((py n - py si) / pdist n si)) = 1).
Proof.
  intros knn o goal k si K W L Ek U H4.
  destruct (knn_first_self knn 3 (positions (o_grid o)) si k K H4 Ek U) as (idx & Eidx).
  pose proof (knn4_three_nearest _ _ _ _ _ K H4 Ek Eidx) as T.
  assert (R : forall i, In i idx -> (i < length (positions (o_grid o)))%nat).
  { intros i Hi. destruct (tn_in _ _ _ T i Hi) as (p & Hp). eapply nth_error_lt; eauto. }
  destruct (three_taken _ idx (tn_length _ _ _ T) R) as (n1 & n2 & n3 & E3).
  exists idx, n1, n2, n3. split; auto. split; auto. split.
  - cbn [pristine_features fc_get_features]. unfold pristine_get_features.
    rewrite (lone_single _ _ W L). cbn [bind]. unfold kneighbors. rewrite (proj2 (Nat.ltb_ge _ _)) by lia.
    rewrite Eidx. cbn [bind tl]. unfold positions_at. rewrite E3. cbn [bind].
    rewrite (goal_delta_lone _ _ goal _ W L). cbn [bind]. f_equal. f_equal. cbn [flatten flat_map map app].
    unfold pscale, psub. cbn [px py]. unfold Rdiv. rewrite !(Rmult_comm (/ _)). reflexivity.
  - intros n Hn.
    assert (Hne : n <> si).
    { intros ->. destruct (In_nth_error _ _ Hn) as (j & Hj). rewrite (take_idx_nth _ _ _ j E3) in Hj.
      destruct (nth_error idx j) as [i|] eqn:Ei; [|discriminate]. apply U in Hj. subst i.
      apply (tn_other _ _ _ T). eapply nth_error_In; eauto. }
    pose proof (pdist_pos _ _ Hne) as Hd.
    replace (mkpt ((px n - px si) / pdist n si) ((py n - py si) / pdist n si)) with (pscale (/ pdist n si) (psub n si))
      by (unfold pscale, psub; cbn; f_equal; unfold Rdiv; ring).
    rewrite pnorm_scale. fold (pdist n si). rewrite Rabs_right; [field; lra|].
    apply Rle_ge, Rlt_le, Rinv_0_lt_compat; auto.
Qed.
Print Assumptions pristine_layout.

(** ** The material-frame features: everything in angstroms *)
Theorem material_frame_layout : forall knn o goal k si, knn_ok knn -> wf_grid (o_grid o) -> proper (o_fov o) ->
  lone_silicon (o_grid o) si -> nth_error (positions (o_grid o)) k = Some si ->
  (forall j, nth_error (positions (o_grid o)) j = Some si -> j = k) ->
  (4 <= length (positions (o_grid o)))%nat ->
  let at_material := map (at_relative (o_fov o)) (positions (o_grid o)) in
  let c := at_relative (o_fov o) si in
  exists idx n1 n2 n3, three_nearest at_material k idx /\
    take_idx at_material idx = Some [n1; n2; n3] /\
    fc_get_features (material_frame_features knn) o goal = Ok (map f32
      [px c; py c;
       px n1 - px c; py n1 - py c; px n2 - px c; py n2 - py c; px n3 - px c; py n3 - py c;
       px (goal_position goal) - px c; py (goal_position goal) - py c]).
Proof.
  intros knn o goal k si K W P L Ek U H4 at_material c.
  assert (Ek' : nth_error at_material k = Some c) by (unfold at_material; rewrite nth_error_map, Ek; reflexivity).
  assert (U' : forall j, nth_error at_material j = Some c -> j = k).
  { intros j Hj. unfold at_material in Hj. rewrite nth_error_map in Hj.
    destruct (nth_error (positions (o_grid o)) j) as [p|] eqn:Ej; [|discriminate]. apply U. rewrite Ej. f_equal.
    cbn [option_map] in Hj. assert (Hj' : at_relative (o_fov o) p = at_relative (o_fov o) si) by (unfold c in Hj; congruence). clear Hj. rename Hj' into Hj. apply (f_equal (relative_to (o_fov o))) in Hj.
    unfold proper in P. rewrite !relative_at_relative in Hj by lra. exact Hj. }
  assert (H4' : (4 <= length at_material)%nat) by (unfold at_material; rewrite map_length; auto).
  destruct (knn_first_self knn 3 at_material c k K H4' Ek' U') as (idx & Eidx).
  pose proof (knn4_three_nearest _ _ _ _ _ K H4' Ek' Eidx) as T.
  assert (R : forall i, In i idx -> (i < length at_material)%nat).
  { intros i Hi. destruct (tn_in _ _ _ T i Hi) as (p & Hp). eapply nth_error_lt; eauto. }
  destruct (three_taken _ idx (tn_length _ _ _ T) R) as (n1 & n2 & n3 & E3).
  exists idx, n1, n2, n3. split; auto. split; auto.
  cbn [material_frame_features fc_get_features]. unfold material_frame_get_features. rewrite grid_to_material_eq.
  rewrite (lone_single _ c (material_wf (o_fov o) _ W) (material_lone (o_fov o) _ _ W L)). cbn [bind positions]. fold at_material. unfold kneighbors.
  rewrite (proj2 (Nat.ltb_ge _ _)) by lia. rewrite Eidx. cbn [bind tl]. unfold positions_at. cbn [positions]. rewrite E3.
  cbn [bind]. rewrite (goal_delta_lone _ _ goal _ W L). cbn [bind]. f_equal.
Qed.
Print Assumptions material_frame_layout.

(** both have ten entries, as announced, whenever they return *)
Theorem features_length : forall knn o goal x, knn_ok knn ->
  fc_get_features (pristine_features knn) o goal = Ok x \/ fc_get_features (material_frame_features knn) o goal = Ok x ->
  length x = 10%nat /\ length x = vector_spec_length /\ (forall y, In y x -> f32 y = y).
Proof.
  intros knn o goal x K H.
  assert (Len : forall pts q idx l, kneighbors knn 4 pts q = Ok idx -> take_idx pts (tl idx) = Some l -> length l = 3%nat).
  { intros pts q idx l E T. apply take_idx_length in T. rewrite T. unfold kneighbors in E.
    destruct (length pts <? 4)%nat eqn:E4; [discriminate|]. apply Nat.ltb_ge in E4. injection E as <-.
    pose proof (knn_length _ K 4 pts q E4) as E5. destruct (knn 4%nat pts q); simpl in *; lia. }
  assert (Fl : forall l : list pt, length (flatten l) = (2 * length l)%nat).
  { induction l as [|p l IH]; [reflexivity|]. cbn [flatten flat_map app length] in *. unfold flatten in IH. rewrite IH. lia. }
  assert (Q : exists l : list R, x = map f32 l /\ length l = 10%nat).
  { destruct H as [H|H].
    - cbn [pristine_features fc_get_features] in H. unfold pristine_get_features in H.
      apply bind_Ok in H as (si & _ & H). apply bind_Ok in H as (idx & E1 & H). apply bind_Ok in H as (ns & E2 & H).
      apply bind_Ok in H as (gd & _ & H).
      match type of H with Ok ?l = Ok _ => assert (Hx : x = l) by congruence end. eexists. split; [exact Hx|]. clear H Hx.
      unfold positions_at in E2. destruct (take_idx (positions (o_grid o)) (tl idx)) as [l|] eqn:E3; [|discriminate]. injection E2 as <-.
      rewrite !app_length, !Fl, map_length, (Len _ _ _ _ E1 E3). reflexivity.
    - cbn [material_frame_features fc_get_features] in H. unfold material_frame_get_features in H.
      apply bind_Ok in H as (si & _ & H). apply bind_Ok in H as (idx & E1 & H). apply bind_Ok in H as (ns & E2 & H).
      apply bind_Ok in H as (gd & _ & H).
      match type of H with Ok ?l = Ok _ => assert (Hx : x = l) by congruence end. eexists. split; [exact Hx|]. clear H Hx.
      unfold positions_at in E2. destruct (take_idx (positions (grid_to_material (o_fov o) (o_grid o))) (tl idx)) as [l|] eqn:E3; [|discriminate].
      injection E2 as <-. rewrite !app_length, !Fl, map_length, (Len _ _ _ _ E1 E3). reflexivity. }
  destruct Q as (l & -> & Ll). rewrite map_length. split; auto. split; auto.
  intros y Hy. apply in_map_iff in Hy as (z & <- & _). apply f32_idem.
Qed.
Print Assumptions features_length.

(** ** Errors *)
Theorem vector_feature_errors : forall knn o goal e, knn_ok knn -> wf_grid (o_grid o) ->
  (fc_get_features (pristine_features knn) o goal = Raise e <->
     (e = SiliconNotFoundError /\ count_number 14 (o_grid o) = 0%nat) \/
     (e = ValueError /\ (1 <= count_number 14 (o_grid o))%nat /\
        ((length (positions (o_grid o)) < 4)%nat \/ (2 <= count_number 14 (o_grid o))%nat))) /\
  (fc_get_features (material_frame_features knn) o goal = Raise e <->
     (e = SiliconNotFoundError /\ count_number 14 (o_grid o) = 0%nat) \/
     (e = ValueError /\ (1 <= count_number 14 (o_grid o))%nat /\
        ((length (positions (o_grid o)) < 4)%nat \/ (2 <= count_number 14 (o_grid o))%nat))).
Proof.
  intros knn o goal e K W.
  assert (Gen : forall gr, wf_grid gr -> count_number 14 gr = count_number 14 (o_grid o) ->
    length (positions gr) = length (positions (o_grid o)) ->
    forall h : pt -> list pt -> pt -> list R,
    (bind (get_single_silicon_position gr) (fun si =>
     bind (kneighbors knn 4 (positions gr) si) (fun idx =>
     bind (positions_at gr (tl idx)) (fun ns =>
     bind (get_silicon_goal_delta (o_grid o) (o_fov o) goal) (fun gd => Ok (h si ns gd))))) = Raise e <->
     (e = SiliconNotFoundError /\ count_number 14 (o_grid o) = 0%nat) \/
     (e = ValueError /\ (1 <= count_number 14 (o_grid o))%nat /\
        ((length (positions (o_grid o)) < 4)%nat \/ (2 <= count_number 14 (o_grid o))%nat)))).
  { intros gr Wg Cg Lg h. destruct (single_silicon_cases gr Wg) as [(si & E & _ & C1)|(E & C0)]; rewrite E; cbn [bind].
    - destruct (le_lt_dec 4 (length (positions gr))) as [H4|H4].
      + destruct (four_knn knn (positions gr) si K H4) as (idx & E1 & R1 & L1). rewrite E1. cbn [bind].
        destruct (three_taken _ _ L1 R1) as (n1 & n2 & n3 & E2). unfold positions_at. rewrite E2. cbn [bind].
        destruct (Nat.eq_dec (count_number 14 (o_grid o)) 1) as [C|C].
        * destruct (lone_exists _ W C) as (si' & Ls). rewrite (goal_delta_lone _ _ goal _ W Ls). cbn [bind].
          split; [discriminate|]. intros [(_ & Z)|(_ & _ & [Z|Z])]; lia.
        * rewrite (goal_delta_several _ _ goal W C). cbn [bind]. split.
          -- intros Z. injection Z as <-. right. split; auto. split; [|right]; lia.
          -- intros [(_ & Z)|(-> & _)]; [lia|reflexivity].
      + unfold kneighbors. rewrite (proj2 (Nat.ltb_lt _ _)) by lia. cbn [bind]. split.
        * intros Z. injection Z as <-. right. split; auto. split; [|left]; lia.
        * intros [(_ & Z)|(-> & _)]; [lia|reflexivity].
    - split.
      + intros Z. injection Z as <-. left. split; auto. lia.
      + intros [(-> & _)|(_ & Z & _)]; [reflexivity|lia]. }
  split.
  - exact (Gen (o_grid o) W eq_refl eq_refl _).
  - refine (Gen (grid_to_material (o_fov o) (o_grid o)) _ _ _ _); rewrite grid_to_material_eq.
    + apply material_wf; auto.
    + reflexivity.
    + cbn. apply map_length.
Qed.
Print Assumptions vector_feature_errors.

(** any other kind of goal is rejected *)
Theorem features_need_silicon_goal : forall knn resize o,
  pristine_get_features knn o OtherGoal = Raise ValueError /\
  material_frame_get_features knn o OtherGoal = Raise ValueError /\
  image_get_features resize o OtherGoal = Raise ValueError.
Proof. intros. repeat split. Qed.
Print Assumptions features_need_silicon_goal.

(** ** Image features *)
Theorem image_features_spec : forall resize o goal, wf_grid (o_grid o) ->
  (forall x, fc_get_features (image_features resize) o goal = Ok x <->
     exists i si, o_image o = Some i /\ lone_silicon (o_grid o) si /\
       x = (resize i, map f32 [px (goal_position goal) - px (at_relative (o_fov o) si);
                               py (goal_position goal) - py (at_relative (o_fov o) si)])) /\
  (forall e, fc_get_features (image_features resize) o goal = Raise e <->
     (e = RuntimeError /\ o_image o = None) \/
     (e = ValueError /\ o_image o <> None /\ count_number 14 (o_grid o) <> 1%nat)).
Proof.
  intros resize o goal W. cbn [image_features fc_get_features]. unfold image_get_features.
  destruct (o_image o) as [i|].
  - destruct (Nat.eq_dec (count_number 14 (o_grid o)) 1) as [C|C].
    + destruct (lone_exists _ W C) as (si & L). rewrite (goal_delta_lone _ _ goal _ W L). cbn [bind]. split.
      * intros x. split.
        -- intros E. injection E as <-. exists i, si. auto.
        -- intros (i' & si' & E & L' & ->). injection E as <-. rewrite (lone_unique _ _ _ W L' L). reflexivity.
      * intros e. split; [discriminate|]. intros [(_ & Z)|(_ & _ & Z)]; [discriminate|tauto].
    + rewrite (goal_delta_several _ _ goal W C). cbn [bind]. split.
      * intros x. split; [discriminate|]. intros (i' & si & _ & L & _). exfalso. apply C, (lone_count _ _ L).
      * intros e. split.
        -- intros E. injection E as <-. right. split; auto. split; [discriminate|auto].
        -- intros [(_ & Z)|(-> & _)]; [discriminate|reflexivity].
  - split.
    + intros x. split; [discriminate|]. intros (i & si & Z & _). discriminate.
    + intros e. split; [intros E; injection E as <-; auto|]. intros [(-> & _)|(_ & Z & _)]; [reflexivity|tauto].
Qed.
Print Assumptions image_features_spec.

(** only the image features ask for an image *)
Theorem who_needs_images : forall knn resize,
  fc_requires_image (pristine_features knn) = false /\ fc_requires_image (material_frame_features knn) = false /\
  fc_requires_image (image_features resize) = true.
Proof. intros. repeat split. Qed.
Print Assumptions who_needs_images.

Definition ex_five : observation :=
  mkobs (mkgrid [mkpt (1/2) (1/2); mkpt (1/2) (3/5); mkpt (2/5) (1/2); mkpt (3/5) (1/2); mkpt 0 0] [14; 6; 6; 6; 6]%Z)
    (mkfov (mkpt 0 0) (mkpt 20 10)) [] 0%Z None None.

Example layout_nonvacuous : exists x y,
  fc_get_features (pristine_features knn_sort) ex_five new_goal = Ok x /\
  fc_get_features (material_frame_features knn_sort) ex_five new_goal = Ok y.
Proof.
  assert (W : wf_grid (o_grid ex_five)) by reflexivity.
  assert (L : lone_silicon (o_grid ex_five) (mkpt (1/2) (1/2))) by (split; [reflexivity|left; reflexivity]).
  assert (U : forall j, nth_error (positions (o_grid ex_five)) j = Some (mkpt (1/2) (1/2)) -> j = 0%nat).
  { intros [|[|[|[|[|[|j]]]]]] H; cbn in H; try discriminate; auto; injection H; intros; lra. }
  assert (H4 : (4 <= length (positions (o_grid ex_five)))%nat) by (cbn; lia).
  destruct (pristine_layout knn_sort ex_five new_goal 0 _ knn_sort_ok W L eq_refl U H4) as (idx & n1 & n2 & n3 & _ & _ & E & _).
  destruct (material_frame_layout knn_sort ex_five new_goal 0 (mkpt (1/2) (1/2)) knn_sort_ok W) as (idx' & m1 & m2 & m3 & _ & _ & E'); auto.
  { unfold proper; cbn; lra. }
  eexists. eexists. split; [exact E|exact E'].
Qed.
