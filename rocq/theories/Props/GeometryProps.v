(** Properties C20 and C74: rotations, angles, nearest neighbours. *)
From Coq Require Import Reals ZArith List Bool Lia Lra Arith.
From Verif Require Import Base.Prelude Model.Geometry Spec.Neighbours
  Proofs.BaseFacts Proofs.GeometryFacts Proofs.NeighbourFacts.
Import ListNotations.
Open Scope R_scope.

(** ** C20 *)
Theorem rotation_isometry : forall l t i j p q,
  nth_error l i = Some p -> nth_error l j = Some q ->
  exists p' q', nth_error (rotate_coordinates l t) i = Some p' /\
                nth_error (rotate_coordinates l t) j = Some q' /\
                pdist p' q' = pdist p q /\ pnorm p' = pnorm p.
Proof.
  intros l t i j p q Hi Hj. exists (rotate p t), (rotate q t).
  unfold rotate_coordinates; rewrite !nth_error_map, Hi, Hj; simpl.
  repeat split; [apply rotate_dist|apply rotate_norm].
Qed.
Print Assumptions rotation_isometry.

Theorem rotation_group : forall l s t,
  length (rotate_coordinates l t) = length l /\
  rotate_coordinates (rotate_coordinates l s) t = rotate_coordinates l (s + t) /\
  rotate_coordinates (rotate_coordinates l t) (- t) = l /\
  rotate_coordinates l 0 = l /\
  rotate_coordinates l (t + 2 * PI) = rotate_coordinates l t /\
  rotate_coordinates [mkpt 0 0] t = [mkpt 0 0].
Proof.
  intros l s t; unfold rotate_coordinates; repeat split.
  - apply map_length.
  - rewrite map_map; apply map_ext; intro; apply rotate_compose.
  - rewrite map_map; rewrite <- (map_id l) at 2; apply map_ext; intro; apply rotate_inv.
  - rewrite <- (map_id l) at 2; apply map_ext; intro; apply rotate_0.
  - apply map_ext; intro; apply rotate_period.
  - simpl; f_equal; apply rotate_zero_pt.
Qed.
Print Assumptions rotation_group.

(** counter-clockwise: the point at polar angle a goes to angle a + t *)
Theorem rotation_counter_clockwise : forall r a t,
  rotate_coordinates [mkpt (r * cos a) (r * sin a)] t =
  [mkpt (r * cos (a + t)) (r * sin (a + t))].
Proof. intros; unfold rotate_coordinates; simpl; f_equal; apply rotate_polar. Qed.
Print Assumptions rotation_counter_clockwise.

Theorem angles_are_polar_angles : forall l i p a,
  nth_error l i = Some p -> p <> mkpt 0 0 ->
  (nth_error (get_angles l) i = Some a <->
   - PI < a <= PI /\ px p = pnorm p * cos a /\ py p = pnorm p * sin a).
Proof.
  intros l i p a Hi Hp. unfold get_angles. rewrite nth_error_map, Hi; simpl. split.
  - intro H; injection H; intros <-. split; [apply atan2_range|].
    pose proof (get_angle_polar p) as E.
    pose proof (f_equal px E); pose proof (f_equal py E); simpl in *; auto.
  - intros (Hr & Hx & Hy). f_equal.
    assert (N : 0 < pnorm p).
    { destruct p as [x y]. apply norm_pos. destruct (Req_dec x 0); auto.
      right; intro; subst; apply Hp; reflexivity. }
    rewrite <- (get_angle_polar_form (pnorm p) a N Hr). f_equal. apply pt_eq; auto.
Qed.
Print Assumptions angles_are_polar_angles.

Theorem rotate_by_minus_angle : forall p,
  rotate_coordinates [p] (- get_angle p) = [mkpt (pnorm p) 0].
Proof. intro; unfold rotate_coordinates; simpl; f_equal; apply rotate_to_axis. Qed.
Print Assumptions rotate_by_minus_angle.

Example rotation_nonvacuous :
  rotate_coordinates [mkpt 1 0; mkpt 0 2] (PI / 2) = [mkpt 0 1; mkpt (-2) 0].
Proof.
  unfold rotate_coordinates, rotate; simpl; rewrite cos_PI2, sin_PI2.
  repeat f_equal; ring.
Qed.

(** ** C74 *)
Theorem nearest_neighbors3_exact : forall knn pts s q,
  knn_ok knn -> nth_error pts s = Some q ->
  (forall j, nth_error pts j = Some q -> j = s) ->
  ((4 <= length pts)%nat ->
     exists idx, nearest_neighbors3 knn pts q false = Ok idx /\ three_nearest pts s idx /\
                 nearest_neighbors3 knn pts q true = Ok (s :: idx)) /\
  ((length pts < 4)%nat -> forall b, nearest_neighbors3 knn pts q b = Raise ValueError).
Proof. exact nearest_neighbors3_spec. Qed.
Print Assumptions nearest_neighbors3_exact.

(** the search contract is satisfiable *)
Theorem nearest_neighbour_contract_satisfiable : knn_ok knn_sort.
Proof. exact knn_sort_ok. Qed.
Print Assumptions nearest_neighbour_contract_satisfiable.

(** If a second atom sits exactly on the query, the query atom itself may be
    reported as its own neighbour. *)
Theorem nearest_neighbors3_duplicates_refuted :
  exists knn pts s q idx, knn_ok knn /\ nth_error pts s = Some q /\
    nearest_neighbors3 knn pts q false = Ok idx /\ In s idx.
Proof. exact nearest_neighbors3_dup. Qed.
Print Assumptions nearest_neighbors3_duplicates_refuted.

Example nearest_neighbors3_nonvacuous :
  let pts := [mkpt 5 0; mkpt 0 0; mkpt 1 0; mkpt 0 2; mkpt 0 (-3)] in
  nth_error pts 1%nat = Some (mkpt 0 0) /\
  (forall j, nth_error pts j = Some (mkpt 0 0) -> j = 1%nat) /\ (4 <= length pts)%nat.
Proof.
  simpl; repeat split; try lia.
  intros [|[|[|[|[|j]]]]]; simpl; intro H; try reflexivity;
    try (injection H; intros; lra); destruct j; discriminate.
Qed.
