(** Properties C54-C59: protocol buffers, drift. *)
From Coq Require Import Reals ZArith List Bool Lia Lra Arith.
From Flocq Require Import Core.
From Verif Require Import Base.Prelude Base.Rounding Model.MicroscopeUtils
  Spec.Grids Spec.Protos Proofs.BaseFacts Proofs.FovFacts Proofs.RoundingFacts Proofs.ProtoFacts.
Import ListNotations.
Open Scope R_scope.

(** ** C54 *)

(** storing a coordinate gives a nearest binary32 number, and storing it again
    changes nothing *)
Theorem stored_coordinate_is_nearest_float : forall x,
  binary32 (f32 x) /\ (forall y, binary32 y -> Rabs (f32 x - x) <= Rabs (y - x)) /\
  f32 (f32 x) = f32 x.
Proof.
  intro x. destruct (f32_nearest x) as [H1 H2]. repeat split; auto. apply f32_idem.
Qed.
Print Assumptions stored_coordinate_is_nearest_float.

Theorem grid_proto_round_trip : forall g,
  (wf_grid g -> exists m, grid_to_proto g = Ok m /\ length m = length (positions g) /\
                          grid_from_proto m = stored_grid g) /\
  (forall e, grid_to_proto g = Raise e <->
             e = IndexError /\ (length (numbers g) < length (positions g))%nat).
Proof.
  intro g; split; [|apply grid_to_proto_raise].
  intro W. destruct (grid_round_trip g W) as (m & E & R). exists m; repeat split; auto.
  unfold grid_from_proto, stored_grid in R. injection R; intros _ R'.
  apply (f_equal (@length _)) in R'. rewrite !map_length in R'; auto.
Qed.
Print Assumptions grid_proto_round_trip.

Theorem control_proto_round_trip : forall c,
  control_from_proto (control_to_proto c) = stored_control c.
Proof. exact control_round_trip. Qed.
Print Assumptions control_proto_round_trip.

Theorem fov_proto_round_trip : forall f, fov_from_proto (fov_to_proto f) = stored_fov f.
Proof. exact fov_round_trip. Qed.
Print Assumptions fov_proto_round_trip.

Theorem observation_proto_round_trip : forall o,
  (wf_grid (o_grid o) ->
     exists m, observation_to_proto o = Ok m /\
               observation_from_proto m = stored_observation o) /\
  (forall e, observation_to_proto o = Raise e <->
     e = IndexError /\ (length (numbers (o_grid o)) < length (positions (o_grid o)))%nat).
Proof.
  intro o; split; [apply observation_round_trip|apply observation_to_proto_raise].
Qed.
Print Assumptions observation_proto_round_trip.

Theorem trajectory_proto_round_trip : forall t,
  (forall o, In o t -> wf_grid (o_grid o)) ->
  exists m, trajectory_to_proto t = Ok m /\
            trajectory_from_proto m = map stored_observation t.
Proof. exact trajectory_round_trip. Qed.
Print Assumptions trajectory_proto_round_trip.

(** a second trip through the proto changes nothing, not even the times *)
Theorem second_round_trip_identity : forall o m,
  wf_grid (o_grid o) -> observation_to_proto o = Ok m ->
  exists m', observation_to_proto (observation_from_proto m) = Ok m' /\
             observation_from_proto m' = observation_from_proto m.
Proof.
  intros o m W E. destruct (observation_round_trip o W) as (m1 & E1 & R1).
  assert (m1 = m) by congruence; subst m1.
  assert (W' : wf_grid (o_grid (observation_from_proto m))).
  { rewrite R1. unfold wf_grid in *; simpl. rewrite map_length; auto. }
  destruct (observation_round_trip _ W') as (m2 & E2 & R2).
  exists m2; split; auto. rewrite R2, R1. apply stored_observation_idem.
Qed.
Print Assumptions second_round_trip_identity.

Definition ex_observation : observation :=
  mkobs (mkgrid [mkpt (1/10) 2; mkpt 3 4] [14%Z; 6%Z]) (mkfov (mkpt 0 0) (mkpt 20 20))
        [mkcontrol (mkpt (1/2) (1/2)) 1500000%Z None (Some (1/10))] 16000001%Z
        (Some [[1; 0]]) None.
Example observation_round_trip_nonvacuous :
  exists m, observation_to_proto ex_observation = Ok m /\
            observation_from_proto m = stored_observation ex_observation /\
            observation_from_proto m <> ex_observation.
Proof.
  destruct (observation_round_trip ex_observation eq_refl) as (m & E & R).
  exists m; repeat split; auto. rewrite R. intro H.
  apply (f_equal o_elapsed) in H. simpl in H.
  rewrite stored_time_eq, time_lossy in H. discriminate.
Qed.

(** ** C55 *)
Theorem times_below_16s_exact : forall t, (Z.abs t <= 16000000)%Z ->
  stored_time t = t.
Proof. exact time_exact. Qed.
Print Assumptions times_below_16s_exact.

Theorem times_above_16s_refuted :
  exists t, (16000000 < t <= 16000001)%Z /\ stored_time t <> t.
Proof.
  exists 16000001%Z; split; [lia|]. rewrite stored_time_eq, time_lossy. discriminate.
Qed.
Print Assumptions times_above_16s_refuted.

(** the time fields of controls and observations are stored this way *)
Theorem time_fields : forall c o m,
  c_dwell (control_from_proto (control_to_proto c)) = stored_time (c_dwell c) /\
  (observation_to_proto o = Ok m ->
   o_elapsed (observation_from_proto m) = stored_time (o_elapsed o)).
Proof.
  intros c o m; split; [rewrite control_round_trip; reflexivity|].
  unfold observation_to_proto; rewrite !tensor_self; simpl. intro H.
  destruct (grid_to_proto (o_grid o)); simpl in H; try discriminate.
  injection H; intros <-. reflexivity.
Qed.
Print Assumptions time_fields.

(** ** C56 *)
Theorem voltage_and_current_round_trip : forall c,
  let c' := control_from_proto (control_to_proto c) in
  (c_voltage_kv c = None -> c_voltage_kv c' = Some 0) /\
  (c_current_na c = None -> c_current_na c' = Some 0) /\
  (forall v, c_voltage_kv c = Some v -> c_voltage_kv c' = Some (f32 v)) /\
  (forall a, c_current_na c = Some a -> c_current_na c' = Some (f32 a)).
Proof.
  intros c c'. unfold c'; rewrite control_round_trip. unfold stored_control; simpl.
  repeat split; intros; rewrite H; reflexivity.
Qed.
Print Assumptions voltage_and_current_round_trip.

(** so "reading back gives the same control" fails even for controls whose
    numbers are all representable *)
Theorem unset_voltage_refuted : exists c, binary32 (px (c_position c)) /\
  binary32 (py (c_position c)) /\ (Z.abs (c_dwell c) <= 16000000)%Z /\
  control_from_proto (control_to_proto c) <> c.
Proof.
  exists (mkcontrol (mkpt 0 1) 1500000%Z None None). simpl. repeat split.
  - apply binary32_iff, (f32_IZR 0); lia.
  - apply binary32_iff, (f32_IZR 1); lia.
  - lia.
  - intro H; apply (f_equal c_voltage_kv) in H; discriminate.
Qed.
Print Assumptions unset_voltage_refuted.

(** ** C57 *)
Theorem transition_proto_exact : forall t,
  wf_grid (t_grid_before t) -> wf_grid (t_grid_after t) ->
  let missing im label := im <> None /\ label = None in
  ((missing (t_image_before t) (t_label_image_before t) \/
    missing (t_image_after t) (t_label_image_after t)) /\
   transition_to_proto t = Raise ValueError) \/
  (~ (missing (t_image_before t) (t_label_image_before t) \/
      missing (t_image_after t) (t_label_image_after t)) /\
   exists m, transition_to_proto t = Ok m /\ transition_from_proto m = stored_transition t).
Proof. exact transition_round_trip. Qed.
Print Assumptions transition_proto_exact.

Theorem unlabelled_images_not_serialisable : forall t,
  wf_grid (t_grid_before t) -> wf_grid (t_grid_after t) ->
  t_image_before t <> None -> t_label_image_before t = None ->
  transition_to_proto t = Raise ValueError.
Proof.
  intros t Wb Wa Hi Hl. destruct (transition_round_trip t Wb Wa) as [[_ H]|[H _]]; auto.
  exfalso; apply H; left; split; auto.
Qed.
Print Assumptions unlabelled_images_not_serialisable.

Definition ex_transition (im label : option image) : transition :=
  mktransition (mkgrid [mkpt 0 0] [14%Z]) (mkgrid [mkpt 0 0] [6%Z])
    (mkfov (mkpt 0 0) (mkpt 1 1)) (mkfov (mkpt 0 0) (mkpt 1 1)) [] im None label None.
Example transition_nonvacuous :
  transition_to_proto (ex_transition (Some [[1]]) None) = Raise ValueError /\
  (exists m, transition_to_proto (ex_transition None (Some [[1]])) = Ok m /\
             t_label_image_before (transition_from_proto m) = None) /\
  (exists m, transition_to_proto (ex_transition (Some [[1]]) (Some [[2]])) = Ok m /\
             t_label_image_before (transition_from_proto m) = Some [[2]]).
Proof.
  repeat split; try reflexivity; eexists; split; reflexivity.
Qed.

(** ** C58 *)
Theorem drift_proto_exact : forall d,
  let d' := drift_from_proto (drift_to_proto d) in
  d_jitter d' = map stored_point (d_jitter d) /\
  d_drift d' = mkpt (IZR (Ztrunc (f32 (px (d_drift d))))) (IZR (Ztrunc (f32 (py (d_drift d))))) /\
  (d_drift d' = stored_point (d_drift d) <->
   exists m n, stored_point (d_drift d) = mkpt (IZR m) (IZR n)).
Proof.
  intros d d'. unfold d'; rewrite drift_round_trip_eq; simpl. repeat split.
  - intro E; rewrite <- E; eauto.
  - intros (m & n & E). unfold stored_point in *. injection E; intros Ey Ex.
    rewrite Ex, Ey, !Ztrunc_IZR; reflexivity.
Qed.
Print Assumptions drift_proto_exact.

(** a drift of less than one angstrom per axis is lost entirely *)
Theorem small_drift_lost : forall d, Rabs (px (d_drift d)) <= 1/2 -> Rabs (py (d_drift d)) <= 1/2 ->
  d_drift (drift_from_proto (drift_to_proto d)) = mkpt 0 0.
Proof.
  intros d Hx Hy. rewrite drift_round_trip_eq; simpl.
  assert (T : forall x, Rabs x <= 1/2 -> Ztrunc (f32 x) = 0%Z).
  { intros x H. apply Rabs_le_inv in H.
    assert (H1 : f32 x <= f32 1) by (apply f32_mono; lra).
    assert (HE : Rabs (f32 x - x) <= / 2 * bpow radix2 (0 - 24)) .
    { apply f32_error; [lia|]. simpl. apply Rabs_def1; lra. }
    assert (HB : bpow radix2 (0 - 24) < 1 / 2).
    { simpl. lra. }
    apply Rabs_le_inv in HE.
    apply Ztrunc_small. lra. }
  rewrite !T by auto. reflexivity.
Qed.
Print Assumptions small_drift_lost.

(** ** C59 *)
Theorem cumulated_drift_is_sum : forall ds d,
  let r := fold_left cumulate_drift ds d in
  d_jitter r = d_jitter d /\
  px (d_drift r) = px (d_drift d) + rsum (map (fun e => px (d_drift e)) ds) /\
  py (d_drift r) = py (d_drift d) + rsum (map (fun e => py (d_drift e)) ds).
Proof. intros ds d r. unfold r; rewrite cumulate_fold; simpl; auto. Qed.
Print Assumptions cumulated_drift_is_sum.

(** One jitter row per atom: the exact result. *)
Theorem apply_to_observation_exact : forall d o,
  length (d_jitter d) = length (positions (o_grid o)) ->
  exists o', apply_to_observation d o = Ok o' /\
    Forall2 (fun pj p' => p' = mkpt (px (fst pj) - px (snd pj)) (py (fst pj) - py (snd pj)))
            (combine (positions (o_grid o)) (d_jitter d)) (positions (o_grid o')) /\
    numbers (o_grid o') = numbers (o_grid o) /\
    lower_left (o_fov o') = translated (d_drift d) (lower_left (o_fov o)) /\
    upper_right (o_fov o') = translated (d_drift d) (upper_right (o_fov o)) /\
    o_controls o' = o_controls o /\ o_elapsed o' = o_elapsed o /\
    o_image o' = o_image o /\ o_label_image o' = None.
Proof.
  intros d o H. unfold apply_to_observation, sub_jitter. rewrite H, Nat.eqb_refl; simpl.
  eexists; split; [reflexivity|]; simpl. repeat split; auto.
  apply Forall2_map_iff; reflexivity.
Qed.
Print Assumptions apply_to_observation_exact.

(** Without jitter this moves every atom, seen in the material frame, by
    exactly the drift. *)
Theorem drift_moves_material_view : forall v o o',
  apply_to_observation (mkdrift [mkpt 0 0] v) o = Ok o' ->
  length (positions (o_grid o)) <> 0%nat ->
  positions (grid_to_material (o_fov o') (o_grid o')) =
  map (translated v) (positions (grid_to_material (o_fov o) (o_grid o))).
Proof.
  intros v o o' H Hl. unfold apply_to_observation, sub_jitter in H. simpl in H.
  assert (E : forall ps, map (fun p => psub p (mkpt 0 0)) ps = ps).
  { intro ps. rewrite <- (map_id ps) at 2. apply map_ext. intro; apply pt_eq; simpl; ring. }
  assert (E2 : o' = mkobs (o_grid o) (fov_shift (o_fov o) (mkpt (px v) (py v)))
                 (o_controls o) (o_elapsed o) (o_image o) None).
  { destruct (positions (o_grid o)) as [|p [|p' ps]] eqn:Ep; simpl in H, Hl; [lia| |].
    - injection H; intros <-. f_equal. apply grid_ext; simpl; auto.
      rewrite Ep; f_equal. apply pt_eq; simpl; ring.
    - rewrite E in H. injection H; intros <-. f_equal. apply grid_ext; simpl; auto.
      rewrite Ep. repeat f_equal; apply pt_eq; simpl; ring. }
  subst o'; simpl. rewrite map_map. apply map_ext. intro p.
  rewrite !to_material_pt_eq. apply pt_eq; simpl; ring.
Qed.
Print Assumptions drift_moves_material_view.

(** The docstring also promises shifted controls; they are not shifted. *)
Theorem drift_shifts_controls_refuted : exists d o o',
  apply_to_observation d o = Ok o' /\ o_controls o <> [] /\
  o_controls o' <> map (fun c => control_shift c (d_drift d)) (o_controls o).
Proof.
  exists (mkdrift [mkpt 0 0; mkpt 0 0] (mkpt 1 0)), ex_observation. eexists.
  split; [reflexivity|]. split; [discriminate|]. simpl. intro H. injection H; intros; lra.
Qed.
Print Assumptions drift_shifts_controls_refuted.

Example apply_to_observation_nonvacuous :
  length (d_jitter (mkdrift [mkpt 1 0; mkpt 0 0] (mkpt 1 0))) =
  length (positions (o_grid ex_observation)).
Proof. reflexivity. Qed.
