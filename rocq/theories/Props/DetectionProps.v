(** C96: atoms from the predictions of the network *)
From Coq Require Import Reals ZArith List Bool Lia Lra Arith.
From Flocq Require Import Core.
From Verif Require Import Base.Prelude Base.Rounding Model.Constants Model.MicroscopeUtils Model.ImageAligner
  Spec.Grids Spec.Views Spec.Detection Proofs.BaseFacts Proofs.FovFacts.
Import ListNotations.
Open Scope R_scope.

Lemma argmax3_spec v : (argmax3 v = 0%nat <-> background_wins v) /\ (argmax3 v = 1%nat <-> carbon_wins v) /\ (argmax3 v = 2%nat <-> silicon_wins v).
Proof.
  destruct v as [[a b] c]. unfold argmax3, background_wins, carbon_wins, silicon_wins.
  destruct (Rltb a b) eqn:E1; [apply Rltb_true in E1|apply Rltb_false in E1].
  - destruct (Rltb b c) eqn:E2; [apply Rltb_true in E2|apply Rltb_false in E2]; repeat split; intros; try discriminate; try lra; auto.
  - destruct (Rltb a c) eqn:E2; [apply Rltb_true in E2|apply Rltb_false in E2]; repeat split; intros; try discriminate; try lra; auto.
Qed.
(** turning logits into probabilities does not change the class; they are
    positive and add up to one *)
Theorem softmax_classes v :
  (background_wins (softmax3 v) <-> background_wins v) /\ (carbon_wins (softmax3 v) <-> carbon_wins v) /\
  (silicon_wins (softmax3 v) <-> silicon_wins v).
Proof.
  destruct v as [[a b] c]. unfold softmax3, background_wins, carbon_wins, silicon_wins.
  pose proof (exp_pos a). pose proof (exp_pos b). pose proof (exp_pos c). set (s := exp a + exp b + exp c).
  assert (Hs : 0 < s) by (unfold s; lra).
  assert (LT : forall x y, exp x / s < exp y / s <-> x < y).
  { intros x y. split; intros Q.
    - apply exp_lt_inv. apply Rmult_lt_reg_r with (/ s); [apply Rinv_0_lt_compat; auto|exact Q].
    - apply Rmult_lt_compat_r; [apply Rinv_0_lt_compat; auto|]. apply exp_increasing. auto. }
  assert (LE : forall x y, exp x / s <= exp y / s <-> x <= y).
  { intros x y. split; intros Q; apply Rnot_lt_le; intros N; [apply (proj2 (LT y x)) in N|apply (proj1 (LT y x)) in N]; lra. }
  rewrite !LT, !LE. tauto.
Qed.
Theorem softmax_probabilities v : let '(a, b, c) := softmax3 v in 0 < a /\ 0 < b /\ 0 < c /\ a + b + c = 1.
Proof.
  destruct v as [[a b] c]. unfold softmax3. pose proof (exp_pos a). pose proof (exp_pos b). pose proof (exp_pos c).
  set (s := exp a + exp b + exp c). assert (Hs : 0 < s) by (unfold s; lra).
  repeat split; try (apply Rdiv_lt_0_compat; auto; fail). unfold s. field. fold s. lra.
Qed.

Lemma off_edges_iff b p : off_edges b p = true <-> off_edge b p.
Proof.
  unfold off_edges, off_edge. rewrite !andb_true_iff, !Rltb_true. tauto.
Qed.
Lemma trunc_bounds x : 0 <= x -> IZR (trunc x) <= x < IZR (trunc x) + 1 /\ (0 <= trunc x)%Z.
Proof.
  intros H. unfold trunc. rewrite Ztrunc_floor by auto. split; [split; [apply Zfloor_lb|apply Zfloor_ub]|].
  apply Zfloor_lub. auto.
Qed.
(** the centre of a contour, for a square image: less than a pixel off, to the left or above *)
Lemma centroid_near n m : solid_in n n m -> 
  px (seen_centre n n m) - / INR n < px (centroid n n m) <= px (seen_centre n n m) /\
  py (seen_centre n n m) <= py (centroid n n m) < py (seen_centre n n m) + / INR n.
Proof.
  intros (H0 & [Hx1 Hx2] & Hy1 & Hy2). assert (Hn : 0 < INR n) by lra. unfold centroid, seen_centre.
  assert (E : Reqb (m00 m) 0 = false) by (apply Reqb_false; auto). rewrite E. cbn [negb].
  fold (centre_column m) (centre_row m).
  destruct (trunc_bounds _ Hx1) as [[A1 A2] _]. destruct (trunc_bounds _ Hy1) as [[B1 B2] _]. cbn [px py].
  pose proof (Rinv_0_lt_compat _ Hn) as Hi. unfold Rdiv. set (i := / INR n) in *. repeat split; nra.
Qed.
Lemma centroid_flat h w m : m00 m = 0 -> centroid h w m = mkpt 0 1.
Proof.
  intros H. unfold centroid. assert (E : Reqb (m00 m) 0 = true) by (apply Reqb_true; auto). rewrite E. cbn [negb].
  apply pt_eq; cbn; unfold Rdiv; ring.
Qed.

Section Detection.
Variable contours : raster bool -> nat -> list moments.
Notation detect := (process_detection_predictions contours).
Notation centre := (fun r m => centroid (rs_height r) (rs_width r) m).

(** C96: the atoms are the centres of the contours of the pixels that are most
    likely carbon (eroded once), then those of silicon (eroded three times),
    without those near an edge *)
Theorem detected probs b : exists carbon silicon,
  mask_of carbon_wins probs carbon /\ mask_of silicon_wins probs silicon /\
  wf_grid (detect probs b) /\
  selects (fun a => off_edge b (fst a))
    (map (fun m => (centre probs m, 6%Z)) (contours carbon 1) ++ map (fun m => (centre probs m, 14%Z)) (contours silicon 3))
    (atoms (detect probs b)).
Proof.
  unfold process_detection_predictions, compute_centroids. cbn [rs_height rs_width rs_pixel].
  set (carbon := mkraster _ _ (fun i j => (argmax3 (rs_pixel probs i j) =? 1)%nat)).
  set (silicon := mkraster _ _ (fun i j => (argmax3 (rs_pixel probs i j) =? 2)%nat)).
  exists carbon, silicon. split; [|split].
  { split; [reflexivity|]. split; [reflexivity|]. intros i j. cbn [carbon rs_pixel]. rewrite Nat.eqb_eq. apply argmax3_spec. }
  { split; [reflexivity|]. split; [reflexivity|]. intros i j. cbn [silicon rs_pixel]. rewrite Nat.eqb_eq. apply argmax3_spec. }
  rewrite !map_length. set (cs := contours carbon 1). set (ss := contours silicon 3).
  set (c := centroid (rs_height probs) (rs_width probs)).
  set (ps := map c cs ++ map c ss). set (ns := repeat CARBON (length cs) ++ repeat SILICON (length ss)).
  assert (L : length ps = length ns) by (unfold ps, ns; rewrite !app_length, !map_length, !repeat_length; reflexivity).
  split. { unfold wf_grid. cbn [positions numbers]. apply mask_select_length. exact L. }
  unfold atoms. cbn [positions numbers]. rewrite <- mask_select_combine by exact L.
  assert (E : map (fun m => (c m, 6%Z)) cs ++ map (fun m => (c m, 14%Z)) ss = combine ps ns).
  { unfold ps, ns. clear. assert (G : forall A (f : A -> pt) (z : Z) l, map (fun m => (f m, z)) l = combine (map f l) (repeat z (length l))).
    { intros A f z l. induction l; cbn; congruence. }
    assert (C : forall (a1 a2 : list pt) (b1 b2 : list Z), length a1 = length b1 -> combine (a1 ++ a2) (b1 ++ b2) = combine a1 b1 ++ combine a2 b2).
    { induction a1; intros a2 [|z b1] b2; cbn; try discriminate; auto. intros H. f_equal. auto. }
    rewrite C by (rewrite map_length, repeat_length; reflexivity). rewrite !G. reflexivity. }
  rewrite E. replace (map (off_edges b) ps) with (map (fun a : pt * Z => off_edges b (fst a)) (combine ps ns))
    by (rewrite <- (map_map fst (off_edges b)), map_fst_combine by exact L; reflexivity).
  rewrite mask_select_filter. apply selects_filter. intros a. apply off_edges_iff.
Qed.

(** C96: for square images: an atom is within a pixel of the centre of mass of a
    contour of its kind, which has an area *)
Theorem detected_sound probs b n p z : 0 <= b -> rs_height probs = n -> rs_width probs = n ->
  (forall mask k m, rs_height mask = n -> rs_width mask = n -> In m (contours mask k) -> m00 m = 0 \/ solid_in n n m) ->
  In (p, z) (atoms (detect probs b)) ->
  off_edge b p /\ exists mask k m, In m (contours mask k) /\ solid_in n n m /\ within (/ INR n) p (seen_centre n n m) /\
    ((z = 6%Z /\ k = 1%nat /\ mask_of carbon_wins probs mask) \/ (z = 14%Z /\ k = 3%nat /\ mask_of silicon_wins probs mask)).
Proof.
  intros Hb Hh Hw Hc Hin. destruct (detected probs b) as (carbon & silicon & Mc & Ms & _ & S).
  apply (selects_In _ _ _ S) in Hin. destruct Hin as [Hin Ho]. cbn [fst] in Ho. split; [exact Ho|].
  assert (Gen : forall mask k m, mask_of carbon_wins probs mask \/ mask_of silicon_wins probs mask ->
    In m (contours mask k) -> p = centroid (rs_height probs) (rs_width probs) m ->
    solid_in n n m /\ within (/ INR n) p (seen_centre n n m)).
  { intros mask k m M Im ->. rewrite Hh, Hw in *.
    destruct (Hc mask k m) as [Z|Sm]; auto.
    { destruct M as [M|M]; destruct M as (-> & _); auto. } { destruct M as [M|M]; destruct M as (_ & -> & _); auto. }
    { rewrite centroid_flat in Ho by auto. unfold off_edge in Ho. cbn [px py] in Ho. lra. }
    split; auto. destruct (centroid_near n m Sm) as [A B]. unfold within. split; apply Rabs_def1; lra. }
  apply in_app_or in Hin. destruct Hin as [Hin|Hin]; apply in_map_iff in Hin; destruct Hin as (m & E & Im); injection E as Ep Ez.
  - exists carbon, 1%nat, m. destruct (Gen carbon 1%nat m) as [G1 G2]; auto. repeat split; auto; apply G1 || apply G2 || idtac.
  - exists silicon, 3%nat, m. destruct (Gen silicon 3%nat m) as [G1 G2]; auto. repeat split; auto; apply G1 || apply G2 || idtac.
Qed.
(** C96: and every contour with an area gives an atom, unless its centre is
    within a pixel of the margin *)
Theorem detected_complete probs b n mask k z m : rs_height probs = n -> rs_width probs = n ->
  ((z = 6%Z /\ k = 1%nat /\ mask_of carbon_wins probs mask) \/ (z = 14%Z /\ k = 3%nat /\ mask_of silicon_wins probs mask)) ->
  (forall mask' j, mask_of (fun x => x = true) mask' mask -> contours mask' j = contours mask j) ->
  In m (contours mask k) -> solid_in n n m -> off_edge (b + / INR n) (seen_centre n n m) ->
  exists p, In (p, z) (atoms (detect probs b)) /\ within (/ INR n) p (seen_centre n n m).
Proof.
  intros Hh Hw Hz Hx Im Sm Ho. destruct (detected probs b) as (carbon & silicon & Mc & Ms & _ & S).
  destruct (centroid_near n m Sm) as [A B]. exists (centroid n n m).
  split; [|unfold within; split; apply Rabs_def1; lra]. apply (selects_In _ _ _ S). cbn [fst]. split.
  2:{ unfold off_edge in *. lra. }
  assert (Same : forall P m1, mask_of P probs m1 -> mask_of P probs mask -> mask_of (fun x => x = true) m1 mask).
  { intros P m1 (a1 & a2 & a3) (b1 & b2 & b3). split; [congruence|]. split; [congruence|]. intros i j. rewrite b3, a3. tauto. }
  rewrite Hh, Hw. apply in_or_app. destruct Hz as [(-> & -> & M)|(-> & -> & M)].
  - left. apply in_map_iff. exists m. split; auto. rewrite (Hx carbon); eauto.
  - right. apply in_map_iff. exists m. split; auto. rewrite (Hx silicon); eauto.
Qed.
(** a margin of half the image leaves nothing *)
Theorem detected_margin probs b : 1 / 2 <= b -> atoms (detect probs b) = [].
Proof.
  intros Hb. destruct (detected probs b) as (carbon & silicon & _ & _ & _ & S).
  destruct (atoms (detect probs b)) as [|a l]; auto. exfalso.
  assert (I : In a (a :: l)) by (left; auto). apply (selects_In _ _ _ S) in I. destruct I as [_ Ho]. unfold off_edge in Ho. lra.
Qed.
End Detection.
(** the usual margin *)
Theorem usual_margin : default_buffer_width = 1 / 20.
Proof. unfold default_buffer_width. field. Qed.

(** C96, false for images that are not square: the place of a blob in the middle is taken
    relative to the other side, so that it is lost *)
Theorem detected_oblong_refuted : exists contours probs m,
  rs_height probs = 100%nat /\ rs_width probs = 200%nat /\
  (forall mask k, contours mask k = [m]) /\ solid_in 100 200 m /\
  seen_centre 100 200 m = mkpt (1 / 2) (1 / 2) /\
  atoms (process_detection_predictions contours probs default_buffer_width) = [].
Proof.
  set (m := mkmoments 1 100 50). set (probs := mkraster 100 200 (fun _ _ : nat => (0, 1, 0))).
  exists (fun _ _ => [m]), probs, m. split; [reflexivity|]. split; [reflexivity|]. split; [reflexivity|].
  assert (C : centre_column m = 100) by (unfold centre_column; cbn; field).
  assert (W : centre_row m = 50) by (unfold centre_row; cbn; field).
  assert (I1 : INR 100 = 100) by (rewrite INR_IZR_INZ; reflexivity). assert (I2 : INR 200 = 200) by (rewrite INR_IZR_INZ; reflexivity).
  split. { unfold solid_in. rewrite C, W, I1, I2. cbn [m m00]. lra. }
  split. { unfold seen_centre. rewrite C, W, I1, I2. apply pt_eq; cbn [px py]; field. }
  destruct (detected (fun _ _ => [m]) probs default_buffer_width) as (carbon & silicon & _ & _ & _ & S).
  destruct (atoms _) as [|a l]; auto. exfalso.
  assert (I : In a (a :: l)) by (left; auto). apply (selects_In _ _ _ S) in I. destruct I as [I Ho].
  assert (E : centroid 100 200 m = mkpt 1 (3 / 4)).
  { unfold centroid. assert (Q : Reqb (m00 m) 0 = false) by (apply Reqb_false; cbn; lra). rewrite Q. cbn [negb].
    fold (centre_column m) (centre_row m). rewrite C, W. unfold trunc. rewrite !Ztrunc_IZR, I1, I2. apply pt_eq; cbn [px py]; field. }
  change (rs_height probs) with 100%nat in I. change (rs_width probs) with 200%nat in I.
  cbn [map app In] in I. rewrite E in I. unfold off_edge in Ho. rewrite usual_margin in Ho. destruct I as [<-|[<-|[]]]; cbn [fst px py] in Ho; lra.
Qed.

(** a blob in the middle of a square image *)
Example detected_nonvacuous : let m := mkmoments 4 (4 * 256) (4 * 300) in
  solid_in 512 512 m /\ off_edge (default_buffer_width + / INR 512) (seen_centre 512 512 m) /\
  let contours := fun (mask : raster bool) (k : nat) => if rs_pixel mask 0 0 then [m] else [] in
  let probs := mkraster 512 512 (fun _ _ : nat => (0, 1, 0)) in
  exists p, In (p, 6%Z) (atoms (process_detection_predictions contours probs default_buffer_width)) /\ within (/ INR 512) p (seen_centre 512 512 m).
Proof.
  cbv zeta. set (m := mkmoments 4 (4 * 256) (4 * 300)).
  assert (C : centre_column m = 256) by (unfold centre_column; cbn; field).
  assert (W : centre_row m = 300) by (unfold centre_row; cbn; field).
  assert (I : INR 512 = 512) by (rewrite INR_IZR_INZ; reflexivity).
  assert (Sm : solid_in 512 512 m) by (unfold solid_in; rewrite C, W, I; cbn [m m00]; lra).
  assert (O : off_edge (default_buffer_width + / INR 512) (seen_centre 512 512 m)).
  { unfold off_edge, seen_centre, default_buffer_width. rewrite C, W, I. cbn [px py]. lra. }
  split; auto. split; auto. set (probs := mkraster 512 512 (fun _ _ : nat => (0, 1, 0))).
  assert (M : mask_of carbon_wins probs (mkraster 512 512 (fun _ _ => true))).
  { split; [reflexivity|]. split; [reflexivity|]. intros i j. cbn. split; auto. intros _. lra. }
  apply (detected_complete _ probs default_buffer_width 512 (mkraster 512 512 (fun _ _ => true)) 1 6%Z m); auto.
  - intros mask' k (_ & _ & H). cbn. assert (Q : rs_pixel mask' 0 0 = true) by (apply H; reflexivity). rewrite Q. reflexivity.
  - left; reflexivity.
Qed.

Print Assumptions softmax_classes.
Print Assumptions softmax_probabilities.
Print Assumptions detected.
Print Assumptions detected_sound.
Print Assumptions detected_complete.
Print Assumptions detected_margin.
Print Assumptions usual_margin.
Print Assumptions detected_oblong_refuted.
