(** Facts about float32 and microsecond rounding. *)
From Coq Require Import Reals ZArith List Lia Lra.
From Flocq Require Import Core.
From Verif Require Import Base.Prelude Base.Rounding.
Open Scope R_scope.

Definition is_f32 (x : R) : Prop := generic_format radix2 (FLT_exp (-149) 24) x.

#[global] Instance prec24 : Prec_gt_0 24.
Proof. unfold Prec_gt_0; lia. Qed.

Lemma f32_format x : is_f32 (f32 x).
Proof. apply generic_format_round; typeclasses eauto. Qed.
Lemma f32_id x : is_f32 x -> f32 x = x.
Proof. intro H; apply round_generic; [typeclasses eauto|exact H]. Qed.
Lemma f32_idem x : f32 (f32 x) = f32 x.
Proof. apply f32_id, f32_format. Qed.
Lemma f32p_idem p : f32p (f32p p) = f32p p.
Proof. unfold f32p; simpl; rewrite !f32_idem; reflexivity. Qed.
Lemma f32_mono x y : x <= y -> f32 x <= f32 y.
Proof. apply round_le; typeclasses eauto. Qed.
Lemma f32_0 : f32 0 = 0.
Proof. apply round_0; typeclasses eauto. Qed.
Lemma f32_nonneg x : 0 <= x -> 0 <= f32 x.
Proof. intro H; rewrite <- f32_0; apply f32_mono; auto. Qed.

(** small integers are representable *)
Lemma f32_IZR n : (Z.abs n <= 16777216)%Z -> is_f32 (IZR n).
Proof.
  intro H. apply generic_format_FLT.
  destruct (Z.eq_dec (Z.abs n) 16777216) as [E|E].
  - assert (Hn : n = 16777216%Z \/ n = (-16777216)%Z) by lia.
    destruct Hn as [-> | ->].
    + exists (Float radix2 1 24); simpl; [unfold F2R; simpl; lra|lia|lia].
    + exists (Float radix2 (-1) 24); simpl; [unfold F2R; simpl; lra|lia|lia].
  - exists (Float radix2 n 0); simpl; [unfold F2R; simpl; lra|lia|lia].
Qed.
Lemma f32_IZR_id n : (Z.abs n <= 16777216)%Z -> f32 (IZR n) = IZR n.
Proof. intro; apply f32_id, f32_IZR; auto. Qed.
Lemma f32_1 : f32 1 = 1.
Proof. apply (f32_IZR_id 1); lia. Qed.
Lemma f32_unit x : 0 <= x <= 1 -> 0 <= f32 x <= 1.
Proof.
  intros [H1 H2]; split; [apply f32_nonneg; auto|].
  rewrite <- f32_1; apply f32_mono; auto.
Qed.

(** error bound *)
Lemma f32_error x e : (-125 <= e)%Z -> Rabs x < bpow radix2 e ->
  Rabs (f32 x - x) <= / 2 * bpow radix2 (e - 24).
Proof.
  intros He Hx. unfold f32.
  eapply Rle_trans; [apply error_le_half_ulp; typeclasses eauto|].
  apply Rmult_le_compat_l; [lra|].
  destruct (Req_dec x 0) as [->|Hn].
  - rewrite ulp_FLT_0; [apply bpow_le; lia|typeclasses eauto].
  - rewrite ulp_neq_0 by auto. apply bpow_le. unfold cexp, FLT_exp.
    pose proof (mag_le_bpow radix2 x e Hn Hx). lia.
Qed.

(** * rounding to integers *)
Lemma rhe_near x n : Rabs (x - IZR n) < / 2 -> round_half_even x = n.
Proof. intro H; apply Znearest_imp; exact H. Qed.
Lemma rhe_IZR n : round_half_even (IZR n) = n.
Proof. apply rhe_near. unfold Rminus; rewrite Rplus_opp_r, Rabs_R0; lra. Qed.
Lemma rhe_error x : Rabs (x - IZR (round_half_even x)) <= / 2.
Proof. apply Znearest_half. Qed.
Lemma rhe_mono x y : x <= y -> (round_half_even x <= round_half_even y)%Z.
Proof. intro H; apply (@Zrnd_le _ (valid_rnd_N _)); auto. Qed.

Lemma td_total t : td_seconds (total_seconds t) = t.
Proof.
  unfold td_seconds, total_seconds.
  replace (IZR t / 1000000 * 1000000) with (IZR t) by field. apply rhe_IZR.
Qed.
Lemma td_mono x y : x <= y -> (td_seconds x <= td_seconds y)%Z.
Proof. intro; apply rhe_mono; lra. Qed.
Lemma total_mono s t : (s <= t)%Z -> total_seconds s <= total_seconds t.
Proof. intro H; apply IZR_le in H; unfold total_seconds; lra. Qed.
Lemma td_nonneg x : 0 <= x -> (0 <= td_seconds x)%Z.
Proof.
  intro H; replace 0%Z with (td_seconds 0); [apply td_mono; auto|].
  unfold td_seconds; rewrite Rmult_0_l; apply (rhe_IZR 0).
Qed.
Lemma td_0 : td_seconds 0 = 0%Z.
Proof. unfold td_seconds; rewrite Rmult_0_l; apply (rhe_IZR 0). Qed.

(** * times through the float32 seconds field *)
Lemma time_exact t : (Z.abs t <= 16000000)%Z ->
  td_seconds (f32 (total_seconds t)) = t.
Proof.
  intro H.
  destruct (Z.eq_dec (Z.abs t) 16000000) as [E|E].
  { replace (f32 (total_seconds t)) with (total_seconds t); [apply td_total|].
    symmetry; unfold total_seconds.
    assert (Ht : t = 16000000%Z \/ t = (-16000000)%Z) by lia.
    destruct Ht as [-> | ->].
    - replace (16000000 / 1000000) with (IZR 16) by field. apply f32_IZR_id; lia.
    - replace (-16000000 / 1000000) with (IZR (-16)) by field. apply f32_IZR_id; lia. }
  unfold td_seconds. apply rhe_near.
  assert (Hb : Rabs (total_seconds t) < bpow radix2 4).
  { unfold total_seconds. assert (Hl : (-16000000 < t < 16000000)%Z) by lia.
    destruct Hl as [H1 H2]; apply IZR_lt in H1, H2.
    replace (bpow radix2 4) with 16 by (simpl; lra). apply Rabs_def1; lra. }
  pose proof (f32_error (total_seconds t) 4 ltac:(lia) Hb) as He.
  replace (4 - 24)%Z with (-20)%Z in He by reflexivity.
  replace (f32 (total_seconds t) * 1000000 - IZR t)
    with ((f32 (total_seconds t) - total_seconds t) * 1000000)
    by (unfold total_seconds; field).
  rewrite Rabs_mult, (Rabs_pos_eq 1000000) by lra.
  replace (bpow radix2 (-20)) with (/ 1048576) in He by (simpl; lra).
  lra.
Qed.

Lemma time_lossy : td_seconds (f32 (total_seconds 16000001%Z)) = 16000002%Z.
Proof.
  assert (E : f32 (total_seconds 16000001%Z) = 8388609 / 524288).
  { unfold f32, round, scaled_mantissa, cexp.
    rewrite (mag_unique_pos radix2 (total_seconds 16000001%Z) 5)
      by (unfold total_seconds; simpl; lra).
    replace (FLT_exp (-149) 24 5) with (-19)%Z by reflexivity.
    change (ZnearestE ?x) with (round_half_even x).
    rewrite (rhe_near _ 8388609).
    - unfold F2R; simpl; lra.
    - unfold total_seconds; simpl. apply Rabs_def1; lra. }
  rewrite E. unfold td_seconds. apply rhe_near. apply Rabs_def1; lra.
Qed.

(** what a time becomes, in general: the error is at most one part in 2^24
    plus half a microsecond *)
Lemma time_stable t : td_seconds (f32 (total_seconds t)) = t \/ (16000000 < Z.abs t)%Z.
Proof.
  destruct (Z_le_gt_dec (Z.abs t) 16000000); [left; apply time_exact; auto|right; lia].
Qed.

(** * truncation *)
Lemma trunc_IZR n : trunc (IZR n) = n.
Proof. apply Ztrunc_IZR. Qed.
