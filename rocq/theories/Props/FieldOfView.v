(** Properties C01-C06: fields of view, frame conversion, selection. *)
From Coq Require Import Reals ZArith List Bool Lia Lra Arith.
From Verif Require Import Base.Prelude Model.MicroscopeUtils Spec.Grids
  Proofs.BaseFacts Proofs.FovFacts Proofs.FovAlgebra.
Import ListNotations.
Open Scope R_scope.

(** A concrete scene used by the examples: a 4 x 2 field of view and three
    atoms, one of them outside and one exactly on the border. *)
Definition ex_fov : fov := mkfov (mkpt 1 1) (mkpt 5 3).
Definition ex_grid : grid :=
  mkgrid [mkpt 1 2; mkpt 7 2; mkpt 3 2] [6%Z; 6%Z; 14%Z].

(** ** C01 *)
Theorem frame_round_trip_microscope : forall f x y,
  px (lower_left f) <> px (upper_right f) -> py (lower_left f) <> py (upper_right f) ->
  microscope_frame_to_material_frame f x = Ok y ->
  material_frame_to_microscope_frame f y = Ok x.
Proof.
  intros f x y Hx Hy. rewrite to_material_convert, to_microscope_convert.
  apply convert_inverse; intro; apply relative_at_relative; auto.
Qed.
Print Assumptions frame_round_trip_microscope.

Theorem frame_round_trip_material : forall f x y,
  px (lower_left f) <> px (upper_right f) -> py (lower_left f) <> py (upper_right f) ->
  material_frame_to_microscope_frame f x = Ok y ->
  microscope_frame_to_material_frame f y = Ok x.
Proof.
  intros f x y Hx Hy. rewrite to_material_convert, to_microscope_convert.
  apply convert_inverse; intro; apply at_relative_relative; auto.
Qed.
Print Assumptions frame_round_trip_material.

Example frame_round_trip_nonvacuous :
  exists y, material_frame_to_microscope_frame ex_fov (PGrid ex_grid) = Ok y /\
            y <> PGrid ex_grid /\ microscope_frame_to_material_frame ex_fov y = Ok (PGrid ex_grid).
Proof.
  eexists; split; [reflexivity|split].
  - unfold ex_fov, ex_grid, to_microscope_pt, fov_scale, pdiv, psub, grid_map_pos; simpl.
    intro H; injection H; intros; lra.
  - apply frame_round_trip_material with (x := PGrid ex_grid); simpl; try lra; reflexivity.
Qed.

(** ** C02: exactly the positions move, by the affine map of the field of view *)
Theorem microscope_to_material_exact : forall f x y,
  microscope_frame_to_material_frame f x = Ok y <-> moved (at_relative f) x y.
Proof. intros; rewrite to_material_convert; apply convert_ok. Qed.
Print Assumptions microscope_to_material_exact.

Theorem material_to_microscope_exact : forall f x y,
  material_frame_to_microscope_frame f x = Ok y <-> moved (relative_to f) x y.
Proof. intros; rewrite to_microscope_convert; apply convert_ok. Qed.
Print Assumptions material_to_microscope_exact.

Theorem frame_conversion_errors : forall f x e,
  let unsupported := e = NotImplementedError /\ x = POther \/
                     e = ValueError /\ exists a, x = PArr1 a /\ length a <> 2%nat in
  (microscope_frame_to_material_frame f x = Raise e <-> unsupported) /\
  (material_frame_to_microscope_frame f x = Raise e <-> unsupported) /\
  microscope_frame_to_material_frame f x <> OutOfFuel /\
  material_frame_to_microscope_frame f x <> OutOfFuel.
Proof.
  intros f x e u. rewrite to_material_convert, to_microscope_convert.
  repeat split; try apply convert_not_fuel; apply convert_raise.
Qed.
Print Assumptions frame_conversion_errors.

Example frame_conversion_nonvacuous :
  microscope_frame_to_material_frame ex_fov (PArr1 [1; 2; 3]) = Raise ValueError /\
  moved (at_relative ex_fov) (PControl (mkcontrol (mkpt (1/2) 1) 1500000%Z None (Some 1)))
                             (PControl (mkcontrol (mkpt 3 3) 1500000%Z None (Some 1))).
Proof.
  split; [reflexivity|].
  replace (mkpt 3 3) with (at_relative ex_fov (mkpt (1/2) 1)); [constructor|].
  apply pt_eq; simpl; lra.
Qed.

(** ** C03 *)
Theorem microscope_frame_corners : forall f,
  microscope_frame_to_material_frame f (PPoint (mkpt 0 0)) = Ok (PPoint (lower_left f)) /\
  microscope_frame_to_material_frame f (PPoint (mkpt 1 1)) = Ok (PPoint (upper_right f)) /\
  microscope_frame_to_material_frame f (PPoint (mkpt (1/2) (1/2))) = Ok (PPoint (fov_offset f)) /\
  fov_offset f = mkpt ((px (lower_left f) + px (upper_right f)) / 2)
                      ((py (lower_left f) + py (upper_right f)) / 2).
Proof.
  intro f; simpl; repeat split; do 2 f_equal; rewrite to_material_pt_eq;
    apply pt_eq; simpl; field.
Qed.
Print Assumptions microscope_frame_corners.

Theorem in_view_iff_unit_square : forall f p, proper f ->
  (inside (lower_left f) (upper_right f) 0 p <->
   exists q, material_frame_to_microscope_frame f (PPoint p) = Ok (PPoint q) /\
             0 <= px q <= 1 /\ 0 <= py q <= 1).
Proof.
  intros f p P. rewrite (inside_relative f p P). unfold inside; simpl. split.
  - intros [H1 H2]. eexists; split; [reflexivity|]. rewrite to_microscope_pt_eq.
    simpl; lra.
  - intros (q & E & H1 & H2). injection E; intros <-.
    rewrite to_microscope_pt_eq in *; simpl in *; lra.
Qed.
Print Assumptions in_view_iff_unit_square.

Example in_view_nonvacuous : proper ex_fov /\
  inside (lower_left ex_fov) (upper_right ex_fov) 0 (mkpt 1 2) /\
  ~ inside (lower_left ex_fov) (upper_right ex_fov) 0 (mkpt 7 2).
Proof. unfold proper, inside; simpl; lra. Qed.

(** ** C04 *)
Theorem resize_exact : forall f w h,
  (0 < w /\ 0 < h -> exists f', fov_resize f w h = Ok f' /\
     px (upper_right f') - px (lower_left f') = w /\
     py (upper_right f') - py (lower_left f') = h /\
     width f' = w /\ height f' = h /\
     fov_offset f' = fov_offset f /\
     px (lower_left f') + px (upper_right f') = px (lower_left f) + px (upper_right f) /\
     py (lower_left f') + py (upper_right f') = py (lower_left f) + py (upper_right f)) /\
  (~ (0 < w /\ 0 < h) -> fov_resize f w h = Raise AssertionError).
Proof. exact resize_spec. Qed.
Print Assumptions resize_exact.

Theorem zoom_exact : forall f z, proper f -> 0 < z ->
  exists f', fov_zoom f z = Ok f' /\ proper f' /\
     px (upper_right f') - px (lower_left f') = (px (upper_right f) - px (lower_left f)) / z /\
     py (upper_right f') - py (lower_left f') = (py (upper_right f) - py (lower_left f)) / z /\
     width f' = width f / z /\ height f' = height f / z /\
     fov_offset f' = fov_offset f /\
     px (lower_left f') + px (upper_right f') = px (lower_left f) + px (upper_right f) /\
     py (lower_left f') + py (upper_right f') = py (lower_left f) + py (upper_right f).
Proof. exact zoom_ok. Qed.
Print Assumptions zoom_exact.

Theorem zoom_nonpositive : forall f z, z <= 0 -> fov_zoom f z = Raise AssertionError.
Proof. exact zoom_raise. Qed.
Print Assumptions zoom_nonpositive.

Theorem zoom_compose : forall f a b, proper f -> 0 < a -> 0 < b ->
  bind (fov_zoom f a) (fun f' => fov_zoom f' b) = fov_zoom f (a * b).
Proof. exact zoom_zoom. Qed.
Print Assumptions zoom_compose.

Theorem zoom_inverse : forall f z, proper f -> 0 < z ->
  bind (fov_zoom f z) (fun f' => fov_zoom f' (/ z)) = Ok f.
Proof. exact zoom_undo. Qed.
Print Assumptions zoom_inverse.

Example zoom_nonvacuous :
  fov_zoom ex_fov 2 = Ok (mkfov (mkpt 2 (3/2)) (mkpt 4 (5/2))).
Proof.
  destruct (zoom_ok ex_fov 2) as (f' & E & _ & W & H & _ & _ & _ & X & Y);
    [unfold proper; simpl; lra|lra|].
  rewrite E; f_equal; apply fov_from_center; simpl in *; lra.
Qed.

(** ** C05 *)
Theorem shift_is_translation : forall f d q,
  width (fov_shift f d) = width f /\ height (fov_shift f d) = height f /\
  fov_offset (fov_shift f d) = translated d (fov_offset f) /\
  lower_left (fov_shift f d) = translated d (lower_left f) /\
  upper_right (fov_shift f d) = translated d (upper_right f) /\
  (forall p, microscope_frame_to_material_frame f (PPoint q) = Ok (PPoint p) ->
     microscope_frame_to_material_frame (fov_shift f d) (PPoint q) =
     Ok (PPoint (translated d p))).
Proof.
  intros f d q. unfold width, height, fov_offset, translated, fov_shift; simpl.
  repeat split; try ring.
  - apply pt_eq; simpl; field.
  - intros p E. injection E; intros <-. do 2 f_equal.
    apply pt_eq; simpl; ring.
Qed.
Print Assumptions shift_is_translation.

Theorem shift_compose : forall f d e,
  fov_shift (fov_shift f d) e = fov_shift f (translated e d).
Proof. intros; apply fov_eq; simpl; ring. Qed.
Print Assumptions shift_compose.

Theorem shift_inverse : forall f d,
  fov_shift (fov_shift f d) (mkpt (- px d) (- py d)) = f.
Proof. intros; apply fov_eq; simpl; ring. Qed.
Print Assumptions shift_inverse.

Theorem shift_grid_and_control : forall g c d,
  (Forall2 (fun p q => q = translated d p) (positions g) (positions (grid_shift g d)) /\
   numbers (grid_shift g d) = numbers g) /\
  (c_position (control_shift c d) = translated d (c_position c) /\
   c_dwell (control_shift c d) = c_dwell c /\
   c_voltage_kv (control_shift c d) = c_voltage_kv c /\
   c_current_na (control_shift c d) = c_current_na c).
Proof.
  intros g c d; repeat split; auto.
  apply Forall2_map_iff; reflexivity.
Qed.
Print Assumptions shift_grid_and_control.

Example shift_nonvacuous : fov_shift ex_fov (mkpt 2 (-1)) = mkfov (mkpt 3 0) (mkpt 7 2).
Proof. apply fov_eq; simpl; lra. Qed.

(** ** C06 *)
Theorem get_atoms_in_bounds_exact : forall f g tol, wf_grid g ->
  let r := fov_get_atoms_in_bounds f g tol in
  wf_grid r /\
  selects (fun a => inside (lower_left f) (upper_right f) tol (fst a)) (atoms g) (atoms r).
Proof. exact get_atoms_select. Qed.
Print Assumptions get_atoms_in_bounds_exact.

Theorem get_atoms_in_bounds_idempotent : forall f g tol, wf_grid g ->
  let r := fov_get_atoms_in_bounds f g tol in
  fov_get_atoms_in_bounds f r tol = r.
Proof. exact get_atoms_twice. Qed.
Print Assumptions get_atoms_in_bounds_idempotent.

Theorem get_atoms_in_bounds_monotone : forall f g tol tol', wf_grid g -> tol <= tol' ->
  selects (fun a => inside (lower_left f) (upper_right f) tol (fst a))
    (atoms (fov_get_atoms_in_bounds f g tol')) (atoms (fov_get_atoms_in_bounds f g tol)).
Proof. exact get_atoms_mono. Qed.
Print Assumptions get_atoms_in_bounds_monotone.

Example get_atoms_in_bounds_nonvacuous : wf_grid ex_grid /\
  atoms (fov_get_atoms_in_bounds ex_fov ex_grid 0) = [(mkpt 1 2, 6%Z); (mkpt 3 2, 14%Z)].
Proof.
  split; [reflexivity|].
  destruct (get_atoms_select ex_fov ex_grid 0 eq_refl) as [_ S].
  eapply selects_fun; [exact S|]. unfold inside; simpl.
  repeat constructor; simpl; lra.
Qed.
