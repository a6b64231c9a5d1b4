(** Algebra of resize, zoom and shift. *)
From Coq Require Import Reals ZArith List Bool Lia Lra Arith.
From Verif Require Import Base.Prelude Model.MicroscopeUtils Spec.Grids
  Proofs.BaseFacts Proofs.FovFacts.
Import ListNotations.
Open Scope R_scope.

Lemma fov_eq f g : px (lower_left f) = px (lower_left g) -> py (lower_left f) = py (lower_left g) ->
  px (upper_right f) = px (upper_right g) -> py (upper_right f) = py (upper_right g) -> f = g.
Proof. destruct f as [[] []], g as [[] []]; simpl; intros; subst; reflexivity. Qed.

Lemma resize_ok f w h : 0 < w -> 0 < h ->
  fov_resize f w h =
  Ok (mkfov (mkpt ((px (lower_left f) + px (upper_right f)) / 2 - w / 2)
                  ((py (lower_left f) + py (upper_right f)) / 2 - h / 2))
            (mkpt ((px (lower_left f) + px (upper_right f)) / 2 + w / 2)
                  ((py (lower_left f) + py (upper_right f)) / 2 + h / 2))).
Proof. intros; unfold fov_resize; rdecide; reflexivity. Qed.
Lemma resize_raise f w h : w <= 0 \/ h <= 0 -> fov_resize f w h = Raise AssertionError.
Proof.
  intros [H|H]; unfold fov_resize; rdecide; [reflexivity|].
  rewrite andb_false_r; reflexivity.
Qed.

Lemma resize_spec f w h :
  (0 < w /\ 0 < h -> exists f', fov_resize f w h = Ok f' /\
     px (upper_right f') - px (lower_left f') = w /\
     py (upper_right f') - py (lower_left f') = h /\
     width f' = w /\ height f' = h /\
     fov_offset f' = fov_offset f /\
     px (lower_left f') + px (upper_right f') = px (lower_left f) + px (upper_right f) /\
     py (lower_left f') + py (upper_right f') = py (lower_left f) + py (upper_right f)) /\
  (~ (0 < w /\ 0 < h) -> fov_resize f w h = Raise AssertionError).
Proof.
  split; intro H.
  - destruct H as [Hw Hh]. rewrite resize_ok by auto. eexists; split; [reflexivity|].
    unfold width, height, fov_offset; simpl.
    repeat split; try lra. apply pt_eq; simpl; lra.
  - apply resize_raise. lra.
Qed.

Lemma pos_div a b : 0 < a -> 0 < b -> 0 < a / b.
Proof. intros; unfold Rdiv; apply Rmult_lt_0_compat; auto; apply Rinv_0_lt_compat; auto. Qed.

Lemma zoom_ok f z : proper f -> 0 < z ->
  exists f', fov_zoom f z = Ok f' /\ proper f' /\
     px (upper_right f') - px (lower_left f') = (px (upper_right f) - px (lower_left f)) / z /\
     py (upper_right f') - py (lower_left f') = (py (upper_right f) - py (lower_left f)) / z /\
     width f' = width f / z /\ height f' = height f / z /\
     fov_offset f' = fov_offset f /\
     px (lower_left f') + px (upper_right f') = px (lower_left f) + px (upper_right f) /\
     py (lower_left f') + py (upper_right f') = py (lower_left f) + py (upper_right f).
Proof.
  intros [Hw Hh] Hz. unfold fov_zoom. rewrite (proj2 (Rltb_true 0 z)) by auto.
  assert (Pw : 0 < width f / z) by (apply pos_div; unfold width; lra).
  assert (Ph : 0 < height f / z) by (apply pos_div; unfold height; lra).
  rewrite resize_ok by auto. eexists; split; [reflexivity|].
  unfold proper, fov_offset, width, height in *; simpl.
  repeat split; try lra. apply pt_eq; simpl; lra.
Qed.
Lemma zoom_raise f z : z <= 0 -> fov_zoom f z = Raise AssertionError.
Proof. intro; unfold fov_zoom; rdecide; reflexivity. Qed.

Lemma fov_from_center f g :
  px (upper_right f) - px (lower_left f) = px (upper_right g) - px (lower_left g) ->
  py (upper_right f) - py (lower_left f) = py (upper_right g) - py (lower_left g) ->
  px (lower_left f) + px (upper_right f) = px (lower_left g) + px (upper_right g) ->
  py (lower_left f) + py (upper_right f) = py (lower_left g) + py (upper_right g) -> f = g.
Proof. intros; apply fov_eq; lra. Qed.

Lemma zoom_zoom f a b : proper f -> 0 < a -> 0 < b ->
  bind (fov_zoom f a) (fun f' => fov_zoom f' b) = fov_zoom f (a * b).
Proof.
  intros P Ha Hb.
  destruct (zoom_ok f a P Ha) as (f1 & E1 & P1 & W1 & H1 & _ & _ & _ & X1 & Y1).
  destruct (zoom_ok f1 b P1 Hb) as (f2 & E2 & P2 & W2 & H2 & _ & _ & _ & X2 & Y2).
  destruct (zoom_ok f (a * b) P) as (f3 & E3 & P3 & W3 & H3 & _ & _ & _ & X3 & Y3);
    [apply Rmult_lt_0_compat; auto|].
  rewrite E1; simpl; rewrite E2, E3. f_equal. apply fov_from_center; try lra.
  - rewrite W2, W1, W3; field; lra.
  - rewrite H2, H1, H3; field; lra.
Qed.
Lemma zoom_one f : proper f -> fov_zoom f 1 = Ok f.
Proof.
  intro P. destruct (zoom_ok f 1 P ltac:(lra)) as (f1 & E1 & P1 & W1 & H1 & _ & _ & _ & X1 & Y1).
  rewrite E1; f_equal; apply fov_from_center; lra.
Qed.
Lemma zoom_undo f z : proper f -> 0 < z ->
  bind (fov_zoom f z) (fun f' => fov_zoom f' (/ z)) = Ok f.
Proof.
  intros P Hz. rewrite zoom_zoom; auto; [|apply Rinv_0_lt_compat; auto].
  rewrite Rinv_r by lra. apply zoom_one; auto.
Qed.
