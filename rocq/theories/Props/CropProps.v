(** C94: an older image, as it would look in another field of view *)
From Coq Require Import Reals ZArith List Bool Lia Lra Arith.
From Flocq Require Import Core.
From Verif Require Import Base.Prelude Base.Rounding Model.MicroscopeUtils Model.ImageAligner Spec.Views
  Proofs.BaseFacts Proofs.RoundingFacts.
Import ListNotations.
Open Scope R_scope.

(** * one axis *)
Lemma clip_round x (n : nat) : round_half_even (clip x 0 (INR n)) = Z.max 0 (Z.min (round_half_even x) (Z.of_nat n)).
Proof.
  unfold clip. destruct (Rle_dec 0 x) as [H|H].
  - rewrite (Rmax_left x 0) by lra. destruct (Rle_dec x (INR n)) as [H'|H'].
    + rewrite Rmin_left by lra. pose proof (rhe_mono 0 x H) as L. pose proof (rhe_mono x (INR n) H') as U.
      rewrite (rhe_IZR 0) in L. rewrite INR_IZR_INZ, rhe_IZR in U. lia.
    + rewrite Rmin_right by lra. pose proof (rhe_mono (INR n) x ltac:(lra)) as L.
      rewrite INR_IZR_INZ, rhe_IZR in *. lia.
  - rewrite (Rmax_right x 0) by lra. rewrite Rmin_left by apply pos_INR. rewrite (rhe_IZR 0).
    pose proof (rhe_mono x 0 ltac:(lra)) as U. rewrite (rhe_IZR 0) in U. lia.
Qed.

Lemma axis (h h' i : nat) (z : Z) : (i < h)%nat ->
  let s := Z.to_nat (Z.max 0 (Z.min z (Z.of_nat (h' + 2 * h - h)))) in
  let k := (Z.of_nat i + (z - Z.of_nat h))%Z in
  ((h <=? s + i)%nat && (s + i <? h + h')%nat = ((0 <=? k) && (k <? Z.of_nat h'))%Z) /\
  (((0 <=? k) && (k <? Z.of_nat h'))%Z = true -> (s + i - h)%nat = Z.to_nat k) /\
  (Nat.min (s + h) (h' + 2 * h) - s = h)%nat.
Proof.
  intros H s k. subst s k. repeat split.
  - apply Bool.eq_true_iff_eq. rewrite !andb_true_iff, Nat.leb_le, Nat.ltb_lt, Z.leb_le, Z.ltb_lt. lia.
  - rewrite andb_true_iff, Z.leb_le, Z.ltb_lt. lia.
  - lia.
Qed.
Lemma axis0 (h' : nat) (z : Z) :
  let s := Z.to_nat (Z.max 0 (Z.min z (Z.of_nat (h' + 2 * 0 - 0)))) in (Nat.min (s + 0) (h' + 2 * 0) - s = 0)%nat.
Proof. cbn. lia. Qed.

(** the displacement in pixels, down and to the right *)
Definition drop (f0 f1 : fov) (h : nat) : R := - (py (upper_right f1) - py (upper_right f0)) * INR h / px (fov_scale f1).
Definition pass (f0 f1 : fov) (w : nat) : R := (px (lower_left f1) - px (lower_left f0)) * INR w / py (fov_scale f1).
Definition whole (t : R) (n : nat) : Z := (round_half_even (t + INR n) - Z.of_nat n)%Z.
Lemma whole_near t n : Rabs (IZR (whole t n) - t) <= / 2.
Proof.
  unfold whole. rewrite minus_IZR, <- INR_IZR_INZ. pose proof (rhe_error (t + INR n)) as E.
  rewrite Rabs_minus_sym in E.
  replace (IZR (round_half_even (t + INR n)) - INR n - t) with (IZR (round_half_even (t + INR n)) - (t + INR n)) by ring. auto.
Qed.

Section Crop.
Context {A : Type}.
Variable zero : A.

Lemma crop_lookup (image : raster A) f0 f1 out : pad_and_crop_images_by_fov zero image f0 f1 = Ok out ->
  exists resized,
    (px (fov_scale f0) = px (fov_scale f1) /\ py (fov_scale f0) = py (fov_scale f1) /\ resized = image \/
     resize_nearest image (round_half_even (INR (rs_height image) * (px (fov_scale f0) / px (fov_scale f1))))
                          (round_half_even (INR (rs_width image) * (py (fov_scale f0) / py (fov_scale f1)))) = Ok resized) /\
    rs_height out = rs_height image /\ rs_width out = rs_width image /\
    forall i j, (i < rs_height image)%nat -> (j < rs_width image)%nat ->
      rs_pixel out i j = panned zero resized (whole (drop f0 f1 (rs_height image)) (rs_height image))
                                             (whole (pass f0 f1 (rs_width image)) (rs_width image)) i j.
Proof.
  unfold pad_and_crop_images_by_fov.
  destruct (Reqb (px (fov_scale f1)) 0 || Reqb (py (fov_scale f1)) 0) eqn:Ez; [discriminate|].
  apply orb_false_iff in Ez. destruct Ez as [Zx Zy]. rb.
  match goal with |- context [bind ?x _] => destruct x as [resized|e|] eqn:Er end; cbn [bind]; try discriminate.
  intros E. assert (Eo := f_equal (fun x => match x with Ok y => y | _ => out end) E). cbn in Eo. clear E. subst out.
  exists resized. split.
  { destruct (negb _ || negb _) eqn:Ef; [right; exact Er|left].
    apply orb_false_iff in Ef. destruct Ef as [F0 F1]. apply negb_false_iff in F0, F1. rb.
    injection Er as <-. repeat split.
    - rewrite <- (Rmult_1_l (px (fov_scale f1))), <- F0. field. auto.
    - rewrite <- (Rmult_1_l (py (fov_scale f1))), <- F1. field. auto. }
  clear Er. unfold slice. cbn [rs_height rs_width rs_pixel]. rewrite !clip_round. unfold pad. cbn [rs_height rs_width rs_pixel].
  set (h := rs_height image). set (w := rs_width image).
  set (z0 := round_half_even (- _ * INR h / _ + INR h)). set (z1 := round_half_even (_ * INR w / _ + INR w)).
  split; [|split].
  - destruct h as [|h]; [apply axis0|]. apply (axis (S h) (rs_height resized) 0 z0). lia.
  - destruct w as [|w]; [apply axis0|]. apply (axis (S w) (rs_width resized) 0 z1). lia.
  - intros i j Hi Hj. destruct (axis h (rs_height resized) i z0 Hi) as (Q0 & I0 & _).
    destruct (axis w (rs_width resized) j z1 Hj) as (Q1 & I1 & _).
    unfold panned. change (whole (drop f0 f1 h) h) with (z0 - Z.of_nat h)%Z. change (whole (pass f0 f1 w) w) with (z1 - Z.of_nat w)%Z.
    change (h + (h + 0))%nat with (2 * h)%nat. change (w + (w + 0))%nat with (2 * w)%nat.
    rewrite Q0. rewrite <- !(andb_assoc (_ && _)), Q1.
    destruct ((0 <=? _)%Z && (_ <? Z.of_nat (rs_height resized))%Z) eqn:E0; cbn [andb]; [|reflexivity].
    destruct ((0 <=? _)%Z && (_ <? Z.of_nat (rs_width resized))%Z) eqn:E1; cbn [andb]; [|reflexivity].
    rewrite I0, I1 by auto. reflexivity.
Qed.

(** * C94: the result has the shape of the image *)
Theorem crop_shape (image : raster A) f0 f1 out : pad_and_crop_images_by_fov zero image f0 f1 = Ok out ->
  rs_height out = rs_height image /\ rs_width out = rs_width image.
Proof. intros E. destruct (crop_lookup _ _ _ _ E) as (r & _ & H & W & _). auto. Qed.

Lemma square_scale f s : square_view f s -> px (fov_scale f) = s /\ py (fov_scale f) = s.
Proof. unfold square_view, fov_scale. cbn. tauto. Qed.

(** it succeeds for square fields of view unless the image would shrink to nothing *)
Theorem crop_succeeds (image : raster A) f0 f1 s0 s1 : square_view f0 s0 -> square_view f1 s1 ->
  (/ 2 < INR (rs_height image) * s0 / s1) -> (/ 2 < INR (rs_width image) * s0 / s1) ->
  exists out, pad_and_crop_images_by_fov zero image f0 f1 = Ok out.
Proof.
  intros V0 V1 H W. destruct (square_scale _ _ V0) as [X0 Y0]. destruct (square_scale _ _ V1) as [X1 Y1].
  destruct V0 as [P0 _]. destruct V1 as [P1 _].
  assert (Pos : forall n, / 2 < INR n * s0 / s1 -> (0 < round_half_even (INR n * (s0 / s1)))%Z /\ (n =? 0)%nat = false).
  { intros n Hn. split.
    - pose proof (rhe_error (INR n * (s0 / s1))) as E. unfold Rdiv in *. rewrite Rmult_assoc in Hn.
      apply Rabs_le_inv in E. apply lt_IZR. lra.
    - apply Nat.eqb_neq. intros ->. cbn in Hn. unfold Rdiv in Hn. rewrite !Rmult_0_l in Hn. lra. }
  destruct (Pos _ H) as [H1 H2]. destruct (Pos _ W) as [W1 W2].
  unfold pad_and_crop_images_by_fov. rewrite X0, Y0, X1, Y1.
  replace (Reqb s1 0) with false by (symmetry; apply Reqb_false; lra). cbn [orb].
  destruct (negb _ || negb _); [|eexists; reflexivity].
  unfold resize_nearest. rewrite H2, W2.
  replace (round_half_even (INR (rs_height image) * (s0 / s1)) <=? 0)%Z with false by (symmetry; apply Z.leb_gt; auto).
  replace (round_half_even (INR (rs_width image) * (s0 / s1)) <=? 0)%Z with false by (symmetry; apply Z.leb_gt; auto).
  cbn. eexists. reflexivity.
Qed.

(** * C94: views of the same size: the image moves by whole pixels, at most half a pixel wrong *)
Theorem crop_pans (image : raster A) f0 f1 s out : square_view f0 s -> square_view f1 s ->
  pad_and_crop_images_by_fov zero image f0 f1 = Ok out ->
  exists down right,
    Rabs (IZR down - (py (upper_right f0) - py (upper_right f1)) / (s / INR (rs_height image))) <= / 2 /\
    Rabs (IZR right - (px (lower_left f1) - px (lower_left f0)) / (s / INR (rs_width image))) <= / 2 /\
    forall i j, (i < rs_height image)%nat -> (j < rs_width image)%nat ->
      rs_pixel out i j = panned zero image down right i j.
Proof.
  intros V0 V1 E. destruct (square_scale _ _ V0) as [X0 Y0]. destruct (square_scale _ _ V1) as [X1 Y1]. destruct V0 as [P _].
  assert (R : pad_and_crop_images_by_fov zero image f0 f1 =
              Ok (slice (pad zero image (rs_height image) (rs_width image))
                    (Z.to_nat (round_half_even (clip (drop f0 f1 (rs_height image) + INR (rs_height image)) 0 (INR (rs_height image + 2 * rs_height image - rs_height image)))))
                    (Z.to_nat (round_half_even (clip (pass f0 f1 (rs_width image) + INR (rs_width image)) 0 (INR (rs_width image + 2 * rs_width image - rs_width image)))))
                    (rs_height image) (rs_width image))).
  { unfold pad_and_crop_images_by_fov. rewrite X0, Y0, X1, Y1.
    replace (Reqb s 0) with false by (symmetry; apply Reqb_false; lra).
    replace (Reqb (s / s) 1) with true by (symmetry; apply Reqb_true; field; lra).
    cbn [orb negb bind rs_height rs_width pad]. unfold drop, pass. rewrite X1, Y1. reflexivity. }
  exists (whole (drop f0 f1 (rs_height image)) (rs_height image)), (whole (pass f0 f1 (rs_width image)) (rs_width image)).
  assert (D : forall x n, x / (s / INR n) = x * INR n / s).
  { intros x n. destruct n as [|n].
    - cbn. unfold Rdiv. rewrite Rinv_0, !Rmult_0_r, Rinv_0. ring.
    - field. split; [lra|apply not_0_INR; discriminate]. }
  split; [|split].
  - rewrite D. replace ((py (upper_right f0) - py (upper_right f1)) * INR (rs_height image) / s) with (drop f0 f1 (rs_height image)).
    apply whole_near. unfold drop. rewrite X1. f_equal. ring.
  - rewrite D. replace ((px (lower_left f1) - px (lower_left f0)) * INR (rs_width image) / s) with (pass f0 f1 (rs_width image)).
    apply whole_near. unfold pass. rewrite Y1. reflexivity.
  - destruct (crop_lookup _ _ _ _ E) as (r & [(_ & _ & ->)|Er] & _ & _ & L); [exact L|].
    (* a resize to the same size is the same picture *)
    intros i j Hi Hj. rewrite L by auto. unfold resize_nearest in Er. rewrite X0, Y0, X1, Y1 in Er.
    replace (s / s) with 1 in Er by (field; lra). rewrite !Rmult_1_r, !INR_IZR_INZ, !rhe_IZR in Er.
    destruct (_ || _ || _ || _); [discriminate|]. injection Er as <-. unfold panned. cbn [rs_height rs_width rs_pixel].
    rewrite !Nat2Z.id.
    destruct (_ && _ && _ && _)%bool eqn:B; [|reflexivity].
    rewrite !andb_true_iff, !Z.leb_le, !Z.ltb_lt in B. destruct B as [[[B1 B2] B3] B4].
    assert (N : forall n k, (k < n)%nat -> nearest_index n n k = k).
    { intros n k Hk. unfold nearest_index. symmetry. apply Nat.div_unique with (r := n). lia. nia. }
    rewrite !N by lia. reflexivity.
Qed.

(** * C94: in general: what is seen at a place comes from that place *)
Lemma axis_near (n : nat) s0 s1 t i (k := (Z.of_nat i + whole t n)%Z) (u := INR i + / 2 + t)
  (n' := round_half_even (INR n * (s0 / s1))) : (0 < n)%nat -> 0 < s0 -> 0 < s1 -> (0 < n')%Z ->
  (1 <= u <= INR n * (s0 / s1) - 1 -> (0 <= k < n')%Z) /\
  (u < -1 \/ INR n * (s0 / s1) + 1 < u -> ~ (0 <= k < n')%Z) /\
  ((0 <= k < n')%Z -> (nearest_index n (Z.to_nat n') (Z.to_nat k) < n)%nat /\
    Rabs ((INR (nearest_index n (Z.to_nat n') (Z.to_nat k)) + / 2) * s0 / INR n - u * s1 / INR n) <= s0 / (2 * INR n) + s1 / INR n).
Proof.
  intros Hn P0 P1 Hn'. set (H := INR n * (s0 / s1)) in *.
  pose proof (whole_near t n) as W. pose proof (rhe_error H) as EH. fold n' in EH. apply Rabs_le_inv in W, EH.
  assert (K : IZR k = INR i + IZR (whole t n)) by (subst k; rewrite plus_IZR, <- INR_IZR_INZ; reflexivity).
  assert (Pn : 0 < INR n) by (apply lt_0_INR; auto).
  split; [|split].
  - intros [U1 U2]. split.
    + enough (-1 < k)%Z by lia. apply lt_IZR. subst u. lra.
    + enough (k < n')%Z by lia.
      destruct (Z_lt_le_dec k n') as [L|L]; auto. exfalso.
      apply IZR_le in L. subst u. lra.
  - intros [U|U] [L1 L2].
    + apply IZR_le in L1. subst u. lra.
    + assert (L : (k + 1 <= n')%Z) by lia. apply IZR_le in L. rewrite plus_IZR in L. subst u. lra.
  - intros [L1 L2]. set (N := Z.to_nat n'). set (q := Z.to_nat k).
    assert (Hq : (q < N)%nat) by lia. assert (PN : 0 < INR N) by (apply lt_0_INR; lia).
    assert (EN : INR N = IZR n') by (unfold N; rewrite INR_IZR_INZ, Z2Nat.id by lia; reflexivity).
    assert (Eq : INR q = IZR k) by (unfold q; rewrite INR_IZR_INZ, Z2Nat.id by lia; reflexivity).
    set (m := nearest_index n N q).
    assert (M : (2 * N * m <= (2 * q + 1) * n /\ (2 * q + 1) * n < 2 * N * (m + 1))%nat).
    { unfold m, nearest_index. pose proof (Nat.div_mod ((2 * q + 1) * n) (2 * N) ltac:(lia)) as D.
      pose proof (Nat.mod_upper_bound ((2 * q + 1) * n) (2 * N) ltac:(lia)) as B. nia. }
    destruct M as [M1 M2]. split; [nia|].
    apply le_INR in M1. apply lt_INR in M2. repeat rewrite ?mult_INR, ?plus_INR in M1. repeat rewrite ?mult_INR, ?plus_INR in M2. cbn [INR] in M1, M2.
    rewrite Eq in M1, M2.
    assert (T1 : Rabs ((INR m + / 2) * s0 / INR n - (IZR k + / 2) * s0 / INR N) <= s0 / (2 * INR n)).
    { replace ((INR m + / 2) * s0 / INR n - (IZR k + / 2) * s0 / INR N)
        with ((INR N * (INR m + / 2) - (IZR k + / 2) * INR n) * (s0 / (INR n * INR N))) by (field; lra).
      rewrite Rabs_mult, (Rabs_pos_eq (s0 / _)) by (apply Rlt_le, Rdiv_lt_0_compat; nra).
      replace (s0 / (2 * INR n)) with (INR N / 2 * (s0 / (INR n * INR N))) by (field; lra).
      apply Rmult_le_compat_r; [apply Rlt_le, Rdiv_lt_0_compat; nra|]. apply Rabs_le. lra. }
    assert (T2 : Rabs ((IZR k + / 2) * s0 / INR N - (IZR k + / 2) * s1 / INR n) <= s1 / (2 * INR n)).
    { assert (Eh : INR n * s0 = H * s1) by (unfold H; field; lra).
      replace ((IZR k + / 2) * s0 / INR N - (IZR k + / 2) * s1 / INR n)
        with ((IZR k + / 2) / INR N * ((H - IZR n') * (s1 / INR n))).
      2: { rewrite <- EN. replace ((H - INR N) * (s1 / INR n)) with ((H * s1 - INR N * s1) / INR n) by (field; lra).
           rewrite <- Eh. field. lra. }
      rewrite !Rabs_mult, (Rabs_pos_eq (s1 / _)) by (apply Rlt_le, Rdiv_lt_0_compat; lra).
      assert (Kp : 0 <= IZR k) by (apply IZR_le in L1; auto).
      assert (Kl : IZR k + 1 <= INR N).
      { rewrite EN. rewrite <- plus_IZR. apply IZR_le. lia. }
      assert (F : Rabs ((IZR k + / 2) / INR N) <= 1).
      { rewrite Rabs_pos_eq by (apply Rlt_le, Rdiv_lt_0_compat; lra). apply Rmult_le_reg_r with (INR N); [lra|].
        unfold Rdiv. rewrite Rmult_assoc, Rinv_l by lra. lra. }
      assert (F' : Rabs (H - IZR n') <= / 2) by (apply Rabs_le; lra).
      assert (Ps : 0 <= s1 / INR n) by (apply Rlt_le, Rdiv_lt_0_compat; lra).
      replace (s1 / (2 * INR n)) with (/ 2 * (s1 / INR n)) by (field; lra).
      rewrite <- Rmult_assoc. apply Rmult_le_compat_r; auto.
      apply Rle_trans with (1 * / 2); [|lra]. apply Rmult_le_compat; auto using Rabs_pos. }
    assert (T3 : Rabs ((IZR k + / 2) * s1 / INR n - u * s1 / INR n) <= s1 / (2 * INR n)).
    { replace ((IZR k + / 2) * s1 / INR n - u * s1 / INR n) with ((IZR k + / 2 - u) * (s1 / INR n)) by (field; lra).
      rewrite Rabs_mult, (Rabs_pos_eq (s1 / _)) by (apply Rlt_le, Rdiv_lt_0_compat; lra).
      replace (s1 / (2 * INR n)) with (/ 2 * (s1 / INR n)) by (field; lra).
      apply Rmult_le_compat_r; [apply Rlt_le, Rdiv_lt_0_compat; lra|]. apply Rabs_le. subst u. lra. }
    replace (s1 / INR n) with (s1 / (2 * INR n) + s1 / (2 * INR n)) by (field; lra).
    apply Rabs_le_inv in T1, T2, T3. apply Rabs_le. lra.
Qed.

Theorem crop_shows (image : raster A) f0 f1 s0 s1 out i j : square_view f0 s0 -> square_view f1 s1 ->
  pad_and_crop_images_by_fov zero image f0 f1 = Ok out -> (i < rs_height image)%nat -> (j < rs_width image)%nat ->
  let here := pixel_centre f1 (rs_height image) (rs_width image) i j in
  let dx := s1 / INR (rs_width image) in
  let dy := s1 / INR (rs_height image) in
  (well_inside f0 dx dy here -> seen_at image f0 s0 s1 here (rs_pixel out i j)) /\
  (well_outside f0 dx dy here -> rs_pixel out i j = zero) /\
  (rs_pixel out i j = zero \/ seen_at image f0 s0 s1 here (rs_pixel out i j)).
Proof.
  intros V0 V1 E Hi Hj here dx dy. destruct (square_scale _ _ V0) as [X0 Y0]. destruct (square_scale _ _ V1) as [X1 Y1].
  set (h := rs_height image) in *. set (w := rs_width image) in *.
  assert (Ph : 0 < INR h) by (apply lt_0_INR; lia). assert (Pw : 0 < INR w) by (apply lt_0_INR; lia).
  destruct V0 as (P0 & Vx0 & Vy0). destruct V1 as (P1 & Vx1 & Vy1).
  destruct (crop_lookup _ _ _ _ E) as (r & Er & _ & _ & L). specialize (L i j Hi Hj). fold h w in L, Er.
  rewrite X0, Y0, X1, Y1 in Er.
  set (h' := round_half_even (INR h * (s0 / s1))) in *. set (w' := round_half_even (INR w * (s0 / s1))) in *.
  (* the resized image, also when it was left alone *)
  assert (Q : (0 < h')%Z /\ (0 < w')%Z /\ rs_height r = Z.to_nat h' /\ rs_width r = Z.to_nat w' /\
    forall a b, (a < rs_height r)%nat -> (b < rs_width r)%nat ->
      rs_pixel r a b = rs_pixel image (nearest_index h (Z.to_nat h') a) (nearest_index w (Z.to_nat w') b)).
  { destruct Er as [(Es & _ & ->)|Er].
    - assert (F : s0 / s1 = 1) by (rewrite Es; field; lra). unfold h', w'. rewrite F, !Rmult_1_r, !INR_IZR_INZ, !rhe_IZR, !Nat2Z.id.
      assert (N : forall n k, (k < n)%nat -> nearest_index n n k = k).
      { intros n k Hk. unfold nearest_index. symmetry. apply Nat.div_unique with (r := n); nia. }
      split; [lia|]. split; [lia|]. split; [auto|]. split; [auto|]. intros a b Ha Hb. rewrite !N by auto. reflexivity.
    - unfold resize_nearest in Er. destruct (_ || _ || _ || _) eqn:B in Er; [discriminate|]. injection Er as <-.
      rewrite !orb_false_iff, !Z.leb_gt in B. cbn. repeat split; tauto || auto. }
  destruct Q as (Ph' & Pw' & Rh & Rw & Rp).
  destruct (axis_near h s0 s1 (drop f0 f1 h) i ltac:(lia) P0 P1 Ph') as (Y_in & Y_out & Y_near). fold h' in Y_in, Y_out, Y_near.
  destruct (axis_near w s0 s1 (pass f0 f1 w) j ltac:(lia) P0 P1 Pw') as (X_in & X_out & X_near). fold w' in X_in, X_out, X_near.
  set (ki := (Z.of_nat i + whole (drop f0 f1 h) h)%Z) in *. set (kj := (Z.of_nat j + whole (pass f0 f1 w) w)%Z) in *.
  set (uy := INR i + / 2 + drop f0 f1 h) in *. set (ux := INR j + / 2 + pass f0 f1 w) in *.
  assert (Hy : py (upper_right f0) - py here = uy * s1 / INR h).
  { unfold here, uy, drop, pixel_centre. cbn [py]. rewrite X1, Vy1. field. lra. }
  assert (Hx : px here - px (lower_left f0) = ux * s1 / INR w).
  { unfold here, ux, pass, pixel_centre. cbn [px]. rewrite Y1, Vx1. field. lra. }
  (* what the result holds *)
  assert (Out : ~ ((0 <= ki < h')%Z /\ (0 <= kj < w')%Z) -> rs_pixel out i j = zero).
  { intros N. rewrite L. unfold panned. fold ki kj. rewrite Rh, Rw, !Z2Nat.id by lia.
    destruct (_ && _ && _ && _)%bool eqn:B; auto. exfalso. apply N.
    rewrite !andb_true_iff, !Z.leb_le, !Z.ltb_lt in B. lia. }
  assert (In : (0 <= ki < h')%Z -> (0 <= kj < w')%Z -> seen_at image f0 s0 s1 here (rs_pixel out i j)).
  { intros Ki Kj. destruct (Y_near Ki) as [My Ny]. destruct (X_near Kj) as [Mx Nx].
    exists (nearest_index h (Z.to_nat h') (Z.to_nat ki)), (nearest_index w (Z.to_nat w') (Z.to_nat kj)).
    fold h w. split; [auto|]. split; [auto|]. split.
    - rewrite L. unfold panned. fold ki kj. rewrite Rh, Rw, !Z2Nat.id by lia.
      replace ((0 <=? ki) && (ki <? h') && (0 <=? kj) && (kj <? w'))%Z with true
        by (symmetry; rewrite !andb_true_iff, !Z.leb_le, !Z.ltb_lt; lia).
      apply Rp; [rewrite Rh; lia|rewrite Rw; lia].
    - split.
      + unfold pixel_centre at 1. cbn [px]. rewrite Vx0. fold w.
        match goal with |- Rabs (_ + ?q - _) <= _ => replace (px (lower_left f0) + q - px here) with (q - ux * s1 / INR w) by lra end.
        replace (1 / 2) with (/ 2) by lra. exact Nx.
      + unfold pixel_centre at 1. cbn [py]. rewrite Vy0. fold h.
        match goal with |- Rabs (_ - ?q - _) <= _ => replace (py (upper_right f0) - q - py here) with (- (q - uy * s1 / INR h)) by lra end.
        rewrite Rabs_Ropp. replace (1 / 2) with (/ 2) by lra. exact Ny. }
  assert (Sc : forall n u, 0 < INR n -> (s1 / INR n <= u * s1 / INR n <-> 1 <= u) /\
     (u * s1 / INR n <= s0 - s1 / INR n <-> u <= INR n * (s0 / s1) - 1) /\
     (u * s1 / INR n < - (s1 / INR n) <-> u < -1) /\ (s0 + s1 / INR n < u * s1 / INR n <-> INR n * (s0 / s1) + 1 < u)).
  { intros n u Pn. set (d := s1 / INR n). assert (Pd : 0 < d) by (apply Rdiv_lt_0_compat; auto).
    replace (u * s1 / INR n) with (u * d) by (unfold d; field; lra).
    assert (Es : s0 = INR n * (s0 / s1) * d) by (unfold d; field; lra).
    set (v := INR n * (s0 / s1)) in *. rewrite Es. repeat split; intros; nra. }
  destruct (Sc h uy Ph) as (S1 & S2 & S3 & S4). destruct (Sc w ux Pw) as (S5 & S6 & S7 & S8).
  split; [|split].
  - unfold well_inside, dx, dy. intros ((A1 & A2) & A3 & A4). apply In.
    + apply Y_in. split; [apply S1; lra|apply S2; lra].
    + apply X_in. split; [apply S5; lra|apply S6; lra].
  - unfold well_outside, dx, dy. intros W. apply Out. intros [Ki Kj].
    destruct W as [B|[B|[B|B]]].
    + apply X_out in Kj; auto. left. apply S7. lra.
    + apply X_out in Kj; auto. right. apply S8. lra.
    + apply Y_out in Ki; auto. right. apply S4. lra.
    + apply Y_out in Ki; auto. left. apply S3. lra.
  - destruct (Z_lt_le_dec ki 0); [left; apply Out; lia|]. destruct (Z_lt_le_dec ki h'); [|left; apply Out; lia].
    destruct (Z_lt_le_dec kj 0); [left; apply Out; lia|]. destruct (Z_lt_le_dec kj w'); [|left; apply Out; lia].
    right. apply In; lia.
Qed.
End Crop.

(** the same field of view: the same image *)
Theorem crop_same {A} (zero : A) image f s out : square_view f s -> pad_and_crop_images_by_fov zero image f f = Ok out ->
  forall i j, (i < rs_height image)%nat -> (j < rs_width image)%nat -> rs_pixel out i j = rs_pixel image i j.
Proof.
  intros V E i j Hi Hj. destruct (crop_pans zero image f f s out V V E) as (d & r & D & R & L). rewrite L by auto.
  assert (Z0 : forall z x, Rabs (IZR z - (x - x) / (s / x)) <= / 2 -> z = 0%Z).
  { intros z x B. unfold Rminus at 2 in B. rewrite Rplus_opp_r in B. unfold Rdiv in B. rewrite Rmult_0_l, Rminus_0_r in B.
    apply Rabs_le_inv in B. assert (-1 < z)%Z by (apply lt_IZR; lra). assert (z < 1)%Z by (apply lt_IZR; lra). lia. }
  replace (py (upper_right f) - py (upper_right f)) with (INR (rs_height image) - INR (rs_height image)) in D by lra.
  replace (px (lower_left f) - px (lower_left f)) with (INR (rs_width image) - INR (rs_width image)) in R by lra.
  apply Z0 in D. apply Z0 in R. subst. unfold panned. rewrite !Z.add_0_r, !Nat2Z.id.
  replace ((0 <=? Z.of_nat i) && (Z.of_nat i <? Z.of_nat (rs_height image)) && (0 <=? Z.of_nat j) &&
           (Z.of_nat j <? Z.of_nat (rs_width image)))%Z with true; [reflexivity|].
  symmetry. rewrite !andb_true_iff, !Z.leb_le, !Z.ltb_lt. lia.
Qed.

(** an image that would shrink to nothing raises *)
Theorem crop_vanishes {A} (zero : A) image f0 f1 s0 s1 : square_view f0 s0 -> square_view f1 s1 ->
  (0 < rs_height image)%nat -> INR (rs_height image) * s0 / s1 < / 2 -> pad_and_crop_images_by_fov zero image f0 f1 = Raise ValueError.
Proof.
  intros V0 V1 Hh H. destruct (square_scale _ _ V0) as [X0 Y0]. destruct (square_scale _ _ V1) as [X1 Y1].
  destruct V0 as [P0 _]. destruct V1 as [P1 _]. unfold pad_and_crop_images_by_fov. rewrite X0, Y0, X1, Y1.
  replace (Reqb s1 0) with false by (symmetry; apply Reqb_false; lra). cbn [orb].
  assert (Z0 : (round_half_even (INR (rs_height image) * (s0 / s1)) <= 0)%Z).
  { rewrite <- (rhe_near (INR (rs_height image) * (s0 / s1)) 0); [apply Z.le_refl|].
    replace (INR (rs_height image) * (s0 / s1) - 0) with (INR (rs_height image) * s0 / s1) by (field; lra).
    rewrite Rabs_pos_eq; auto. pose proof (pos_INR (rs_height image)).
    apply Rmult_le_pos; [nra|]. apply Rlt_le, Rinv_0_lt_compat. auto. }
  destruct (Reqb (s0 / s1) 1) eqn:Ef.
  - rb. exfalso. assert (Es : s0 = s1) by (rewrite <- (Rmult_1_l s1), <- Ef; field; lra).
    rewrite Es in *. replace (INR (rs_height image) * (s1 / s1)) with (INR (rs_height image)) in Z0 by (field; lra).
    rewrite INR_IZR_INZ, rhe_IZR in Z0. lia.
  - cbn [negb orb]. unfold resize_nearest. replace (_ <=? 0)%Z with true by (symmetry; apply Z.leb_le; auto). reflexivity.
Qed.

(** pixels with the same centre are the same, for square fields of view of one size *)
Theorem crop_exact {A} (zero : A) image f0 f1 s out i j i0 j0 : square_view f0 s -> square_view f1 s ->
  pad_and_crop_images_by_fov zero image f0 f1 = Ok out ->
  (i < rs_height image)%nat -> (j < rs_width image)%nat -> (i0 < rs_height image)%nat -> (j0 < rs_width image)%nat ->
  pixel_centre f1 (rs_height image) (rs_width image) i j = pixel_centre f0 (rs_height image) (rs_width image) i0 j0 ->
  rs_pixel out i j = rs_pixel image i0 j0.
Proof.
  intros V0 V1 E Hi Hj Hi0 Hj0 C. destruct (crop_pans zero image f0 f1 s out V0 V1 E) as (d & r & D & R & L). rewrite L by auto.
  destruct V0 as (P0 & Vx0 & Vy0). destruct V1 as (P1 & Vx1 & Vy1). unfold pixel_centre in C. injection C as Cx Cy.
  set (h := rs_height image) in *. set (w := rs_width image) in *.
  assert (Ph : 0 < INR h) by (apply lt_0_INR; lia). assert (Pw : 0 < INR w) by (apply lt_0_INR; lia).
  rewrite Vx0, Vx1 in Cx. rewrite Vy0, Vy1 in Cy.
  assert (Zq : forall z (a b : nat) x, x = (INR a - INR b) -> Rabs (IZR z - x) <= / 2 -> z = (Z.of_nat a - Z.of_nat b)%Z).
  { intros z a b x -> B. rewrite !INR_IZR_INZ, <- !minus_IZR in B. apply Rabs_le_inv in B.
    assert (-1 < z - (Z.of_nat a - Z.of_nat b))%Z by (apply lt_IZR; lra).
    assert (z - (Z.of_nat a - Z.of_nat b) < 1)%Z by (apply lt_IZR; lra). lia. }
  apply (Zq d i0 i) in D.
  2: { replace (py (upper_right f0) - py (upper_right f1)) with ((INR i0 + 1 / 2) * s / INR h - (INR i + 1 / 2) * s / INR h) by lra. field. lra. }
  apply (Zq r j0 j) in R.
  2: { replace (px (lower_left f1) - px (lower_left f0)) with ((INR j0 + 1 / 2) * s / INR w - (INR j + 1 / 2) * s / INR w) by lra. field. lra. }
  subst d r. unfold panned. fold h w.
  replace (Z.of_nat i + (Z.of_nat i0 - Z.of_nat i))%Z with (Z.of_nat i0) by lia.
  replace (Z.of_nat j + (Z.of_nat j0 - Z.of_nat j))%Z with (Z.of_nat j0) by lia. rewrite !Nat2Z.id.
  replace ((0 <=? Z.of_nat i0) && (Z.of_nat i0 <? Z.of_nat h) && (0 <=? Z.of_nat j0) && (Z.of_nat j0 <? Z.of_nat w))%Z with true; auto.
  symmetry. rewrite !andb_true_iff, !Z.leb_le, !Z.ltb_lt. lia.
Qed.
(** ... but not for fields of view that are not square: rows and columns are scaled by the
    other side *)
Theorem crop_oblong_refuted : ~ (forall (image : raster nat) f0 f1 out i j i0 j0,
  fov_scale f0 = fov_scale f1 -> pad_and_crop_images_by_fov 0%nat image f0 f1 = Ok out ->
  (i < rs_height image)%nat -> (j < rs_width image)%nat -> (i0 < rs_height image)%nat -> (j0 < rs_width image)%nat ->
  pixel_centre f1 (rs_height image) (rs_width image) i j = pixel_centre f0 (rs_height image) (rs_width image) i0 j0 ->
  rs_pixel out i j = rs_pixel image i0 j0).
Proof.
  intros H. set (image := mkraster 2 2 (fun _ _ => 1%nat)).
  set (f0 := mkfov (mkpt 0 0) (mkpt 2 1)). set (f1 := mkfov (mkpt 1 0) (mkpt 3 1)).
  assert (X0 : fov_scale f0 = mkpt 2 1) by (apply pt_eq; cbn; lra).
  assert (X1 : fov_scale f1 = mkpt 2 1) by (apply pt_eq; cbn; lra).
  destruct (pad_and_crop_images_by_fov 0%nat image f0 f1) as [out|e|] eqn:E.
  - assert (Q := H image f0 f1 out 0%nat 0%nat 0%nat 1%nat ltac:(congruence) E). cbn [rs_height rs_width image] in Q.
    specialize (Q ltac:(lia) ltac:(lia) ltac:(lia) ltac:(lia)).
    destruct (crop_lookup _ _ _ _ _ E) as (r & Er & _ & _ & L).
    rewrite (L 0%nat 0%nat) in Q by (cbn; lia). cbn [image rs_height rs_width rs_pixel] in Q.
    assert (Rw : rs_width r = 2%nat).
    { destruct Er as [(_ & _ & ->)|Er]; [reflexivity|]. unfold resize_nearest in Er. rewrite X0, X1 in Er. cbn [px py image rs_height rs_width] in Er.
      destruct (_ || _ || _ || _); [discriminate|]. injection Er as <-. cbn [rs_width].
      replace ((1 + 1) * (1 / 1)) with (IZR 2) by lra. rewrite rhe_IZR. reflexivity. }
    assert (Wp : whole (pass f0 f1 2) 2 = 2%Z).
    { unfold whole, pass. rewrite X1. cbn [py]. replace ((px (lower_left f1) - px (lower_left f0)) * INR 2 / 1 + INR 2) with (IZR 4) by (cbn; lra).
      rewrite rhe_IZR. reflexivity. }
    unfold panned in Q. rewrite Wp, Rw in Q. cbn [Z.of_nat Z.add Pos.of_succ_nat Pos.succ Z.ltb Z.compare Pos.compare Pos.compare_cont] in Q.
    rewrite !andb_false_r in Q. enough (0 = 1)%nat by discriminate. apply Q. apply pt_eq; cbn; lra.
  - unfold pad_and_crop_images_by_fov in E. rewrite X0, X1 in E. cbn [px py] in E.
    replace (Reqb 2 0) with false in E by (symmetry; apply Reqb_false; lra). replace (Reqb 1 0) with false in E by (symmetry; apply Reqb_false; lra).
    replace (Reqb (2 / 2) 1) with true in E by (symmetry; apply Reqb_true; lra). replace (Reqb (1 / 1) 1) with true in E by (symmetry; apply Reqb_true; lra).
    discriminate.
  - unfold pad_and_crop_images_by_fov in E. rewrite X0, X1 in E. cbn [px py] in E.
    replace (Reqb 2 0) with false in E by (symmetry; apply Reqb_false; lra). replace (Reqb 1 0) with false in E by (symmetry; apply Reqb_false; lra).
    replace (Reqb (2 / 2) 1) with true in E by (symmetry; apply Reqb_true; lra). replace (Reqb (1 / 1) 1) with true in E by (symmetry; apply Reqb_true; lra).
    discriminate.
Qed.

(** a picture of 4 x 4 pixels of 20 x 20 Angstrom, seen from 10 Angstrom further right, at twice
    the magnification: the pixel in the middle of the left half is well inside *)
Definition ex_image : raster nat := mkraster 4 4 (fun i j => (1 + 4 * i + j)%nat).
Definition ex_old : fov := mkfov (mkpt 0 0) (mkpt 20 20).
Definition ex_new : fov := mkfov (mkpt 12 4) (mkpt 22 14).
Example crop_nonvacuous : square_view ex_old 20 /\ square_view ex_new 10 /\
  (exists out, pad_and_crop_images_by_fov 0%nat ex_image ex_old ex_new = Ok out) /\
  well_inside ex_old (10 / INR 4) (10 / INR 4) (pixel_centre ex_new 4 4 1 1) /\
  well_outside (fov_shift ex_old (mkpt (-10) 0)) (10 / INR 4) (10 / INR 4) (pixel_centre ex_new 4 4 1 1) /\
  square_view (fov_shift ex_old (mkpt (-10) 0)) 20.
Proof.
  assert (V0 : square_view ex_old 20) by (unfold square_view; cbn; lra).
  assert (V1 : square_view ex_new 10) by (unfold square_view; cbn; lra).
  split; [auto|]. split; [auto|]. split; [|split; [|split]].
  - apply (crop_succeeds 0%nat ex_image ex_old ex_new 20 10); auto; cbn; lra.
  - unfold well_inside. cbn. lra.
  - unfold well_outside. cbn. lra.
  - unfold square_view. cbn. lra.
Qed.
Example crop_exact_nonvacuous : pixel_centre (fov_shift ex_old (mkpt 5 0)) 4 4 1 1 = pixel_centre ex_old 4 4 1 2.
Proof. apply pt_eq; cbn; lra. Qed.
Example crop_vanishes_nonvacuous : square_view ex_old 20 /\ square_view (mkfov (mkpt 0 0) (mkpt 200 200)) 200 /\
  INR (rs_height ex_image) * 20 / 200 < / 2.
Proof. unfold square_view. cbn. lra. Qed.

Print Assumptions crop_shape.
Print Assumptions crop_succeeds.
Print Assumptions crop_pans.
Print Assumptions crop_shows.
Print Assumptions crop_same.
Print Assumptions crop_vanishes.
Print Assumptions crop_exact.
Print Assumptions crop_oblong_refuted.
