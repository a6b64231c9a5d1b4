(** Serialisation lemmas. *)
From Coq Require Import Reals ZArith List Bool Lia Lra Arith.
From Flocq Require Import Core.
From Verif Require Import Base.Prelude Base.Rounding Model.MicroscopeUtils
  Spec.Grids Spec.Protos Proofs.BaseFacts Proofs.RoundingFacts.
Import ListNotations.
Open Scope R_scope.

Lemma binary32_iff y : binary32 y <-> is_f32 y.
Proof.
  unfold is_f32; split.
  - intros (m & e & Hm & He & ->). apply generic_format_FLT.
    exists (Float radix2 m e); simpl.
    + unfold F2R; simpl. rewrite bpow_powerRZ. reflexivity.
    + exact Hm.
    + exact He.
  - intro H. apply FLT_format_generic in H; [|typeclasses eauto].
    destruct H as [[m e] H1 H2 H3]. simpl in *.
    exists m, e. repeat split; auto. rewrite H1; unfold F2R; simpl.
    rewrite bpow_powerRZ. reflexivity.
Qed.
Lemma f32_nearest x : binary32 (f32 x) /\
  forall y, binary32 y -> Rabs (f32 x - x) <= Rabs (y - x).
Proof.
  split; [apply binary32_iff, f32_format|].
  intros y Hy. apply binary32_iff in Hy.
  apply (round_N_pt radix2 (FLT_exp (-149) 24) (fun x => negb (Z.even x)) x); exact Hy.
Qed.

(** * a second trip changes no time *)
Lemma f32_opp x : f32 (- x) = - f32 x.
Proof. apply round_NE_opp. Qed.
Lemma rhe_opp x : round_half_even (- x) = (- round_half_even x)%Z.
Proof.
  apply eq_IZR. rewrite opp_IZR.
  assert (H : forall z, IZR (round_half_even z) = round radix2 (FIX_exp 0) ZnearestE z).
  { intro z. unfold round, F2R, scaled_mantissa, cexp, FIX_exp; simpl.
    rewrite !Rmult_1_r. reflexivity. }
  rewrite !H. apply round_NE_opp.
Qed.
Lemma total_opp t : total_seconds (- t)%Z = - total_seconds t.
Proof. unfold total_seconds; rewrite opp_IZR; field. Qed.
Lemma td_opp x : td_seconds (- x) = (- td_seconds x)%Z.
Proof. unfold td_seconds; rewrite <- rhe_opp; f_equal; ring. Qed.

Lemma stored_time_eq t : stored_time t = td_seconds (f32 (total_seconds t)).
Proof. reflexivity. Qed.

Lemma td_error x : Rabs (total_seconds (td_seconds x) - x) <= / 2000000.
Proof.
  unfold total_seconds, td_seconds.
  pose proof (rhe_error (x * 1000000)) as H.
  replace (IZR (round_half_even (x * 1000000)) / 1000000 - x)
    with (- ((x * 1000000 - IZR (round_half_even (x * 1000000))) / 1000000)) by field.
  rewrite Rabs_Ropp. unfold Rdiv; rewrite Rabs_mult, (Rabs_pos_eq (/ 1000000)) by lra. lra.
Qed.

Lemma f32_near_float y y' : is_f32 y -> 16 <= y ->
  y <> bpow radix2 (mag radix2 y - 1) ->
  Rabs (y' - y) <= / 2000000 -> f32 y' = y.
Proof.
  intros Fy Hy Hb Hd.
  assert (U : / 524288 <= ulp radix2 (FLT_exp (-149) 24) y).
  { rewrite ulp_neq_0 by lra. unfold cexp, FLT_exp.
    assert (5 <= mag radix2 y)%Z.
    { apply mag_ge_bpow. rewrite Rabs_pos_eq by lra. simpl; lra. }
    replace (/ 524288) with (bpow radix2 (-19)) by (simpl; lra).
    apply bpow_le. lia. }
  apply Rabs_le_inv in Hd.
  apply Rle_antisym.
  - unfold f32. apply round_N_le_midp; [typeclasses eauto|exact Fy|].
    rewrite succ_eq_pos by lra. lra.
  - unfold f32. apply round_N_ge_midp; [typeclasses eauto|exact Fy|].
    rewrite pred_eq_pos by lra. unfold pred_pos. rewrite Req_bool_false by exact Hb. lra.
Qed.

Lemma stored_time_idem_pos t : (0 <= t)%Z -> stored_time (stored_time t) = stored_time t.
Proof.
  intro H0. rewrite !stored_time_eq.
  destruct (Z_le_gt_dec t 16000000) as [H|H].
  { rewrite !(time_exact t) by lia. reflexivity. }
  set (y := f32 (total_seconds t)).
  assert (Hy : 16 <= y).
  { unfold y. rewrite <- (f32_IZR_id 16) by lia. apply f32_mono.
    unfold total_seconds. assert (16000000 < t)%Z as Hl by lia. apply IZR_lt in Hl. lra. }
  assert (Fy : is_f32 y) by apply f32_format.
  replace (f32 (total_seconds (td_seconds y))) with y; [reflexivity|].
  destruct (Req_dec y (bpow radix2 (mag radix2 y - 1))) as [E|E].
  - assert (M : (5 <= mag radix2 y)%Z).
    { apply mag_ge_bpow. rewrite Rabs_pos_eq by lra. simpl; lra. }
    assert (I : y = IZR (2 ^ (mag radix2 y - 1))).
    { rewrite E at 1. rewrite <- IZR_Zpower by lia. reflexivity. }
    assert (T : total_seconds (td_seconds y) = y).
    { unfold total_seconds, td_seconds. rewrite I at 1.
      rewrite <- mult_IZR, rhe_IZR, mult_IZR. rewrite <- I. field. }
    rewrite T. symmetry; apply f32_id; auto.
  - symmetry; apply f32_near_float; auto. apply td_error.
Qed.
Lemma stored_time_opp t : stored_time (- t)%Z = (- stored_time t)%Z.
Proof. rewrite !stored_time_eq, total_opp, f32_opp, td_opp; reflexivity. Qed.
Lemma stored_time_idem t : stored_time (stored_time t) = stored_time t.
Proof.
  destruct (Z_le_gt_dec 0 t); [apply stored_time_idem_pos; auto|].
  replace t with (- - t)%Z by lia.
  rewrite (stored_time_opp (- t)%Z), stored_time_opp.
  rewrite stored_time_idem_pos by lia. reflexivity.
Qed.

(** * round trips *)
Lemma grid_round_trip g : wf_grid g ->
  exists m, grid_to_proto g = Ok m /\ grid_from_proto m = stored_grid g.
Proof.
  intro W. unfold grid_to_proto. rewrite (proj2 (Nat.ltb_ge _ _)) by (unfold wf_grid in W; lia).
  eexists; split; [reflexivity|].
  unfold grid_from_proto, stored_grid. rewrite !map_map; simpl. f_equal.
  - rewrite <- (map_fst_combine _ _ W) at 2. rewrite map_map. apply map_ext.
    intro a. apply f32p_idem.
  - rewrite <- (map_snd_combine _ _ W) at 2. apply map_ext; reflexivity.
Qed.
Lemma grid_to_proto_raise g e : grid_to_proto g = Raise e <->
  e = IndexError /\ (length (numbers g) < length (positions g))%nat.
Proof.
  unfold grid_to_proto. destruct (Nat.ltb_spec (length (numbers g)) (length (positions g))).
  - split; [intro E; injection E; intros <-; auto|intros [-> _]; auto].
  - split; [discriminate|intros [_ ?]; lia].
Qed.
Lemma control_round_trip c : control_from_proto (control_to_proto c) = stored_control c.
Proof.
  unfold control_from_proto, control_to_proto, stored_control; simpl. f_equal.
  - destruct (c_voltage_kv c); reflexivity.
  - destruct (c_current_na c); reflexivity.
Qed.
Lemma fov_round_trip f : fov_from_proto (fov_to_proto f) = stored_fov f.
Proof. reflexivity. Qed.
Lemma tensor_self (o : option image) : tensor_if o o = Ok o.
Proof. destruct o; reflexivity. Qed.
Lemma controls_round_trip l :
  map control_from_proto (map control_to_proto l) = map stored_control l.
Proof. rewrite map_map; apply map_ext; intro; apply control_round_trip. Qed.

Lemma observation_round_trip o : wf_grid (o_grid o) ->
  exists m, observation_to_proto o = Ok m /\ observation_from_proto m = stored_observation o.
Proof.
  intro W. destruct (grid_round_trip _ W) as (gm & E & R).
  unfold observation_to_proto. rewrite !tensor_self; simpl. rewrite E; simpl.
  eexists; split; [reflexivity|].
  unfold observation_from_proto, stored_observation; simpl.
  rewrite R, fov_round_trip, controls_round_trip. reflexivity.
Qed.
Lemma observation_to_proto_raise o e : observation_to_proto o = Raise e <->
  e = IndexError /\ (length (numbers (o_grid o)) < length (positions (o_grid o)))%nat.
Proof.
  rewrite <- grid_to_proto_raise. unfold observation_to_proto. rewrite !tensor_self; simpl.
  destruct (grid_to_proto (o_grid o)); simpl; split; intro H; try discriminate; auto;
    injection H; intros <-; reflexivity.
Qed.
Lemma trajectory_round_trip t : (forall o, In o t -> wf_grid (o_grid o)) ->
  exists m, trajectory_to_proto t = Ok m /\
            trajectory_from_proto m = map stored_observation t.
Proof.
  induction t as [|o t IH]; intro W.
  - exists []; split; reflexivity.
  - destruct IH as (m & E & R); [intros; apply W; simpl; auto|].
    destruct (observation_round_trip o) as (om & Eo & Ro); [apply W; simpl; auto|].
    exists (om :: m). unfold trajectory_to_proto in *; simpl. rewrite Eo; simpl. rewrite E; simpl.
    split; auto. f_equal; auto.
Qed.

Lemma stored_point_idem p : stored_point (stored_point p) = stored_point p.
Proof. apply f32p_idem. Qed.
Lemma stored_grid_idem g : stored_grid (stored_grid g) = stored_grid g.
Proof.
  unfold stored_grid; simpl; rewrite map_map; f_equal; apply map_ext; intro;
    apply stored_point_idem.
Qed.
Lemma stored_fov_idem f : stored_fov (stored_fov f) = stored_fov f.
Proof. unfold stored_fov; simpl; rewrite !stored_point_idem; reflexivity. Qed.
Lemma stored_optional_idem o : stored_optional (stored_optional o) = stored_optional o.
Proof. destruct o; simpl; [rewrite f32_idem|rewrite f32_0]; reflexivity. Qed.
Lemma stored_control_idem c : stored_control (stored_control c) = stored_control c.
Proof.
  unfold stored_control; simpl.
  rewrite stored_point_idem, stored_time_idem, !stored_optional_idem; reflexivity.
Qed.
Lemma stored_observation_idem o : stored_observation (stored_observation o) = stored_observation o.
Proof.
  unfold stored_observation; simpl.
  rewrite stored_grid_idem, stored_fov_idem, stored_time_idem, map_map. f_equal.
  apply map_ext; intro; apply stored_control_idem.
Qed.

(** * transitions *)
Definition label_missing (im label : option image) : Prop :=
  im <> None /\ label = None.
Lemma tensor_if_cases im label :
  (label_missing im label /\ tensor_if im label = Raise ValueError) \/
  (~ label_missing im label /\ tensor_if im label = Ok (kept_label im label)).
Proof.
  unfold label_missing; destruct im, label; simpl.
  - right; split; auto; intros []; discriminate.
  - left; repeat split; discriminate.
  - right; split; auto; intros []; discriminate.
  - right; split; auto; intros [H _]; apply H; reflexivity.
Qed.
Lemma transition_round_trip t :
  wf_grid (t_grid_before t) -> wf_grid (t_grid_after t) ->
  ((label_missing (t_image_before t) (t_label_image_before t) \/
    label_missing (t_image_after t) (t_label_image_after t)) /\
   transition_to_proto t = Raise ValueError) \/
  (~ (label_missing (t_image_before t) (t_label_image_before t) \/
      label_missing (t_image_after t) (t_label_image_after t)) /\
   exists m, transition_to_proto t = Ok m /\ transition_from_proto m = stored_transition t).
Proof.
  intros Wb Wa. unfold transition_to_proto. rewrite !tensor_self; simpl.
  destruct (tensor_if_cases (t_image_before t) (t_label_image_before t)) as [[Hb Eb]|[Hb Eb]];
    rewrite Eb; simpl; [left; split; auto|].
  destruct (tensor_if_cases (t_image_after t) (t_label_image_after t)) as [[Ha Ea]|[Ha Ea]];
    rewrite Ea; simpl; [left; split; auto|].
  right; split; [tauto|].
  destruct (grid_round_trip _ Wb) as (gb & E1 & R1).
  destruct (grid_round_trip _ Wa) as (ga & E2 & R2).
  rewrite E1; simpl; rewrite E2; simpl. eexists; split; [reflexivity|].
  unfold transition_from_proto, stored_transition; simpl.
  rewrite R1, R2, !fov_round_trip, controls_round_trip. reflexivity.
Qed.

(** * drift *)
Lemma drift_round_trip_eq d :
  drift_from_proto (drift_to_proto d) =
  mkdrift (map stored_point (d_jitter d))
          (mkpt (IZR (Ztrunc (f32 (px (d_drift d))))) (IZR (Ztrunc (f32 (py (d_drift d)))))).
Proof.
  unfold drift_from_proto, drift_to_proto; simpl. rewrite map_map. f_equal.
  apply map_ext; intro; apply f32p_idem.
Qed.
Lemma trunc_fix x : IZR (Ztrunc x) = x <-> exists n, x = IZR n.
Proof.
  split; [intro E; rewrite <- E; eauto|]. intros [n ->]; rewrite Ztrunc_IZR; auto.
Qed.

Lemma Ztrunc_small x : -1 < x < 1 -> Ztrunc x = 0%Z.
Proof.
  intro H. destruct (Rle_lt_dec 0 x).
  - rewrite Ztrunc_floor by auto. apply Zfloor_imp; simpl; lra.
  - rewrite Ztrunc_ceil by lra. apply Zceil_imp; simpl; lra.
Qed.

Lemma cumulate_fold ds d :
  fold_left cumulate_drift ds d =
  mkdrift (d_jitter d)
    (mkpt (px (d_drift d) + rsum (map (fun e => px (d_drift e)) ds))
          (py (d_drift d) + rsum (map (fun e => py (d_drift e)) ds))).
Proof.
  revert d; induction ds as [|e ds IH]; intros [j [x y]]; simpl.
  - rewrite !Rplus_0_r; reflexivity.
  - rewrite IH; simpl. f_equal. apply pt_eq; simpl; ring.
Qed.
