(** C111: what the networks are trained on *)
From Coq Require Import Reals ZArith List Bool Arith Lia Lra.
From Verif Require Import Base.Prelude Base.Rounding Model.Constants Model.MicroscopeUtils Model.ImageAligner Model.LearningData
  Proofs.BaseFacts Spec.LearningData.
Import ListNotations.
Open Scope R_scope.

(** * resizing *)
Lemma nearest_centre m n i : (0 < n)%nat -> centre_in m n i (nearest_index m n i).
Proof.
  intros H. unfold centre_in, nearest_index. pose proof (Nat.div_mod ((2 * i + 1) * m) (2 * n) ltac:(lia)). pose proof (Nat.mod_upper_bound ((2 * i + 1) * m) (2 * n) ltac:(lia)). nia.
Qed.
Lemma centre_below m n i r : (i < n)%nat -> (0 < m)%nat -> centre_in m n i r -> (r < m)%nat.
Proof. unfold centre_in. intros. nia. Qed.
Lemma centre_unique m n i r r' : (0 < n)%nat -> centre_in m n i r -> centre_in m n i r' -> r = r'.
Proof. unfold centre_in. intros. nia. Qed.
Lemma centre_same n i : (0 < n)%nat -> centre_in n n i i.
Proof. unfold centre_in. nia. Qed.
Lemma resized {A} (r : raster A) size : has_pixels r -> (0 < size)%nat -> exists r',
  resize_nearest r (Z.of_nat size) (Z.of_nat size) = Ok r' /\ rs_height r' = size /\ rs_width r' = size /\
  forall i j, (i < size)%nat -> (j < size)%nat -> shows r size i j (rs_pixel r' i j).
Proof.
  intros [Hh Hw] Hs. unfold resize_nearest. destruct (Z.leb_spec (Z.of_nat size) 0); [lia|]. destruct (Nat.eqb_spec (rs_height r) 0); [lia|]. destruct (Nat.eqb_spec (rs_width r) 0); [lia|]. cbn [orb].
  eexists. split; [reflexivity|]. cbn [rs_height rs_width rs_pixel]. rewrite Nat2Z.id. split; [auto|]. split; [auto|]. intros i j Hi Hj.
  exists (nearest_index (rs_height r) size i), (nearest_index (rs_width r) size j). pose proof (nearest_centre (rs_height r) size i Hs). pose proof (nearest_centre (rs_width r) size j Hs).
  split; [auto|]. split; [auto|]. split; [apply (centre_below _ size i); assumption|]. split; [apply (centre_below _ size j); assumption|]. reflexivity.
Qed.
Lemma fitted {A} (r : raster A) size : has_pixels r -> (0 < size)%nat -> exists r',
  fit size r = Ok r' /\ rs_height r' = size /\ rs_width r' = size /\
  forall i j, (i < size)%nat -> (j < size)%nat -> shows r size i j (rs_pixel r' i j).
Proof.
  intros H Hs. unfold fit. destruct (Nat.eqb_spec (rs_height r) size) as [Eh|]; [destruct (Nat.eqb_spec (rs_width r) size) as [Ew|]|]; cbn [negb orb]; try apply resized; auto.
  exists r. split; [auto|]. split; [auto|]. split; [auto|]. intros i j Hi Hj. exists i, j. rewrite Eh, Ew. split; [apply centre_same; auto|]. split; [apply centre_same; auto|]. auto.
Qed.
Lemma shows_map {A B} (f : A -> B) r size i j y : shows (raster_map f r) size i j y -> exists x, shows r size i j x /\ y = f x.
Proof. intros (k & l & H1 & H2 & H3 & H4 & ->). exists (rs_pixel r k l). split; [exists k, l; auto|reflexivity]. Qed.

(** C111: every pixel of an image in training, and its label, come from one pixel of the example: the one its
    centre falls in *)
Theorem detection_pixels {A} size (e : detection_example A Z) : (0 < size)%nat -> has_pixels (de_image e) -> same_shape (de_image e) (de_mask e) ->
  exists e', detection_transform size e = Ok e' /\ rs_height (de_image e') = size /\ rs_width (de_image e') = size /\ same_shape (de_image e') (de_mask e') /\
    forall i j, (i < size)%nat -> (j < size)%nat -> exists k l,
      centre_in (rs_height (de_image e)) size i k /\ centre_in (rs_width (de_image e)) size j l /\ (k < rs_height (de_image e))%nat /\ (l < rs_width (de_image e))%nat /\
      rs_pixel (de_image e') i j = rs_pixel (de_image e) k l /\ rs_pixel (de_mask e') i j = label_target (rs_pixel (de_mask e) k l).
Proof.
  intros Hs Hp [Sh Sw]. destruct (resized (de_image e) size Hp Hs) as (im & E1 & H1 & W1 & P1). assert (Hp' : has_pixels (de_mask e)) by (destruct Hp; split; [rewrite <- Sh|rewrite <- Sw]; auto).
  destruct (resized (de_mask e) size Hp' Hs) as (ma & E2 & H2 & W2 & P2). unfold detection_transform, detection_resize. rewrite E1, E2. cbn [bind]. eexists. split; [reflexivity|]. cbn [de_image de_mask raster_map rs_height rs_width rs_pixel].
  split; [auto|]. split; [auto|]. split; [split; cbn; congruence|]. intros i j Hi Hj. destruct (P1 i j Hi Hj) as (k & l & C1 & C2 & L1 & L2 & X). destruct (P2 i j Hi Hj) as (k' & l' & C1' & C2' & _ & _ & X'). rewrite <- Sh in C1'. rewrite <- Sw in C2'.
  rewrite <- (centre_unique _ _ _ _ _ Hs C1 C1') in X'. rewrite <- (centre_unique _ _ _ _ _ Hs C2 C2') in X'. exists k, l. rewrite X'. auto 10.
Qed.

(** C111: so does every pixel of an example for image alignment, at all times; bytes are divided by 255; the
    labels are those of all times, or of the last one *)
Theorem alignment_pixels final size (e : alignment_example (list (list value)) (list Z)) : (0 < size)%nat -> has_pixels (ae_images e) -> same_shape (ae_images e) (ae_mask e) ->
  exists e', alignment_transform final size e = Ok e' /\ rs_height (ae_images e') = size /\ rs_width (ae_images e') = size /\ same_shape (ae_images e') (ae_mask e') /\
    (if final then only_last (ae_drift e) (ae_drift e') else ae_drift e' = ae_drift e) /\
    forall i j, (i < size)%nat -> (j < size)%nat -> exists k l labels,
      centre_in (rs_height (ae_images e)) size i k /\ centre_in (rs_width (ae_images e)) size j l /\ (k < rs_height (ae_images e))%nat /\ (l < rs_width (ae_images e))%nat /\
      rs_pixel (ae_images e') i j = map (fun v => match v with Byte b => IZR b / 255 | Float x => x end) (concat (rs_pixel (ae_images e) k l)) /\
      (if final then only_last (rs_pixel (ae_mask e) k l) labels else labels = rs_pixel (ae_mask e) k l) /\
      rs_pixel (ae_mask e') i j = map label_target labels.
Proof.
  intros Hs Hp [Sh Sw].
  assert (OL : forall (X : Type) (l : list X), only_last l (final_only l)).
  { intros X l. unfold final_only, only_last. destruct l as [|x l] using rev_ind; [auto|right]. exists l, x. split; [auto|]. rewrite app_length. cbn [length]. rewrite Nat.add_sub, skipn_app, skipn_all, Nat.sub_diag. reflexivity. }
  set (e0 := if final then select_final e else e).
  set (ims := raster_map (@concat R) (raster_map (map (map convert_value)) (ae_images e0))).
  assert (Ei : ae_images e0 = ae_images e) by (unfold e0; destruct final; reflexivity).
  assert (Em : same_shape (ae_mask e) (ae_mask e0)) by (unfold e0; destruct final; split; reflexivity).
  assert (P1 : has_pixels ims) by (unfold ims; rewrite Ei; exact Hp).
  assert (P2 : has_pixels (ae_mask e0)) by (destruct Em as [Eh Ew], Hp; split; [rewrite <- Eh, <- Sh|rewrite <- Ew, <- Sw]; auto).
  destruct (fitted ims size P1 Hs) as (im & E1 & H1 & W1 & Q1). destruct (fitted (ae_mask e0) size P2 Hs) as (ma & E2 & H2 & W2 & Q2).
  unfold alignment_transform. fold e0. unfold alignment_resize. fold ims. rewrite E1, E2. cbn [bind]. eexists. split; [reflexivity|]. cbn [ae_images ae_mask ae_drift raster_map rs_height rs_width rs_pixel].
  split; [auto|]. split; [auto|]. split; [split; cbn; congruence|]. split; [unfold e0; destruct final; cbn; auto|].
  intros i j Hi Hj. destruct (Q1 i j Hi Hj) as (k & l & C1 & C2 & L1 & L2 & X). destruct (Q2 i j Hi Hj) as (k' & l' & C1' & C2' & _ & _ & X').
  assert (Sh1 : rs_height ims = rs_height (ae_images e)) by (unfold ims; rewrite Ei; reflexivity).
  assert (Sw1 : rs_width ims = rs_width (ae_images e)) by (unfold ims; rewrite Ei; reflexivity).
  rewrite Sh1 in C1, L1. rewrite Sw1 in C2, L2. destruct Em as [Eh Ew]. rewrite <- Eh, <- Sh in C1'. rewrite <- Ew, <- Sw in C2'.
  rewrite <- (centre_unique _ _ _ _ _ Hs C1 C1') in X'. rewrite <- (centre_unique _ _ _ _ _ Hs C2 C2') in X'.
  exists k, l, (rs_pixel (ae_mask e0) k l). rewrite X, X'. split; [auto|]. split; [auto|]. split; [auto|]. split; [auto|]. split; [|split; [|reflexivity]].
  - unfold ims. rewrite Ei. cbn [raster_map rs_pixel]. rewrite <- concat_map. reflexivity.
  - unfold e0. destruct final; cbn; auto.
Qed.

(** C111: an image of the right size is not changed *)
Theorem right_size {A} (e : detection_example A Z) size : (0 < size)%nat -> rs_height (de_image e) = size -> rs_width (de_image e) = size -> same_shape (de_image e) (de_mask e) ->
  exists e', detection_transform size e = Ok e' /\ forall i j, (i < size)%nat -> (j < size)%nat ->
    rs_pixel (de_image e') i j = rs_pixel (de_image e) i j /\ rs_pixel (de_mask e') i j = label_target (rs_pixel (de_mask e) i j).
Proof.
  intros Hs Eh Ew Ss. destruct (detection_pixels size e Hs) as (e' & E & _ & _ & _ & P); [split; lia|auto|]. exists e'. split; [auto|]. intros i j Hi Hj. destruct (P i j Hi Hj) as (k & l & C1 & C2 & _ & _ & X & Y).
  rewrite Eh in C1. rewrite Ew in C2. rewrite <- (centre_unique _ _ _ _ _ Hs (centre_same size i Hs) C1) in X, Y. rewrite <- (centre_unique _ _ _ _ _ Hs (centre_same size j Hs) C2) in X, Y. auto.
Qed.
(** C111: examples without pixels are errors *)
Theorem no_pixels {A} (e : detection_example A Z) size : ~ has_pixels (de_image e) -> detection_transform size e = Raise ValueError.
Proof.
  intros H. unfold detection_transform, detection_resize, resize_nearest.
  replace ((rs_height (de_image e) =? 0)%nat) with (if (rs_height (de_image e) =? 0)%nat then true else false) by (destruct (_ =? _)%nat; reflexivity).
  destruct (Nat.eqb_spec (rs_height (de_image e)) 0) as [|Nh]; [rewrite !orb_true_r; reflexivity|]. destruct (Nat.eqb_spec (rs_width (de_image e)) 0) as [|Nw]; [rewrite !orb_true_r; reflexivity|]. destruct H. split; lia.
Qed.

(** * labels *)
(** C111: the target of a pixel: three numbers, one for its class and zero for the others; with any other label,
    zeros *)
Theorem label_targets l : length (label_target l) = 3%nat /\
  forall k x, nth_error (label_target l) k = Some x -> (of_class l k -> x = 1) /\ (~ of_class l k -> x = 0).
Proof.
  split; [reflexivity|]. intros k x. unfold label_target, one_hot, remap_label, CARBON, SILICON.
  assert (E : (if ((if (l =? 6)%Z then 1 else l) =? 14)%Z then 2%Z else if (l =? 6)%Z then 1%Z else l) = if (l =? 6)%Z then 1%Z else if (l =? 14)%Z then 2%Z else l) by (destruct (Z.eqb_spec l 6); [subst; reflexivity|reflexivity]).
  cbv zeta. rewrite E. clear E. cbn [seq map]. unfold of_class.
  destruct k as [|[|[|k]]]; cbn; [| | |destruct k; discriminate]; intros Hx; injection Hx as <-;
    (destruct (Z.eqb_spec l 6) as [->|N6]; [cbn; split; intros Hc; (try reflexivity); exfalso; (apply Hc || idtac); lia|]);
    (destruct (Z.eqb_spec l 14) as [->|N14]; [cbn; split; intros Hc; (try reflexivity); exfalso; (apply Hc || idtac); lia|]);
    match goal with |- context [(l =? ?c)%Z] => destruct (Z.eqb_spec l c) end; split; intros Hc; (try reflexivity); exfalso; (apply Hc || idtac); lia.
Qed.
(** C111: carbon, silicon and the background are told apart, and nothing else *)
Theorem labels_told_apart l l' : label_target l = label_target l' <-> (forall k, of_class l k <-> of_class l' k).
Proof.
  assert (D : forall l k, of_class l k \/ ~ of_class l k) by (intros m k; unfold of_class; lia).
  split.
  - intros E k. destruct (label_targets l) as [L1 T1], (label_targets l') as [L2 T2]. rewrite E in T1.
    destruct (Nat.lt_ge_cases k 3) as [Hk|Hk]; [|unfold of_class; lia].
    destruct (nth_error (label_target l') k) as [x|] eqn:Ex; [|apply nth_error_None in Ex; lia]. destruct (T1 k x Ex) as [A1 A2], (T2 k x Ex) as [B1 B2].
    split; intros H; [destruct (D l' k) as [|N]; auto; rewrite (A1 H) in B2; specialize (B2 N); lra|destruct (D l k) as [|N]; auto; rewrite (B1 H) in A2; specialize (A2 N); lra].
  - intros H. destruct (label_targets l) as [L1 T1], (label_targets l') as [L2 T2]. apply (nth_ext _ _ 0 0); [congruence|]. intros k Hk. rewrite L1 in Hk.
    destruct (nth_error (label_target l) k) as [x|] eqn:Ex; [|apply nth_error_None in Ex; lia]. destruct (nth_error (label_target l') k) as [y|] eqn:Ey; [|apply nth_error_None in Ey; lia].
    rewrite (nth_error_nth _ _ _ Ex), (nth_error_nth _ _ _ Ey). destruct (T1 k x Ex) as [A1 A2], (T2 k y Ey) as [B1 B2]. destruct (D l k) as [Hc|Hc]; [rewrite A1, B1; auto; apply H; auto|rewrite A2, B2; auto; intros Hc'; apply Hc; apply H; auto].
Qed.

(** * processes *)
(** C111: from some place on, before the configured one, every example is read by exactly one process, if a
    process reads every process_count-th example *)
Theorem processes_share start count : (0 < count)%nat -> exists base, (base <= start < base + count)%nat /\
  forall n, (base <= n)%nat -> exists p k, (p < count)%nat /\ n = (process_start start count p + k * count)%nat /\
    forall p' k', (p' < count)%nat -> n = (process_start start count p' + k' * count)%nat -> p' = p /\ k' = k.
Proof.
  intros Hc. exists (start / count * count)%nat. pose proof (Nat.div_mod start count ltac:(lia)). pose proof (Nat.mod_upper_bound start count ltac:(lia)). split; [lia|].
  intros n Hn. set (d := (n - start / count * count)%nat). pose proof (Nat.div_mod d count ltac:(lia)). pose proof (Nat.mod_upper_bound d count ltac:(lia)). exists (d mod count)%nat, (d / count)%nat. unfold process_start. split; [auto|]. split; [lia|].
  intros p' k' Hp' E. assert (Ed : d = (p' + k' * count)%nat) by lia. rewrite Ed. rewrite Nat.mod_add, Nat.div_add, (Nat.mod_small p'), (Nat.div_small p') by lia. lia.
Qed.

(** * training and use *)
Lemma minimum_in l : l <> [] -> In (minimum l) l /\ forall x, In x l -> minimum l <= x.
Proof.
  destruct l as [|a l]; [congruence|]. intros _. unfold minimum. induction l as [|b l [IH1 IH2]]; cbn [fold_right]; [cbn; split; [auto|intros x [<-|[]]; lra]|]. split.
  - apply (Rmin_case b (fold_right Rmin a l) (fun z => In z (a :: b :: l))); [cbn; auto|]. destruct IH1; [left; auto|right; right; auto].
  - intros x [<-|[<-|H]]; [pose proof (IH2 a ltac:(left; auto)); pose proof (Rmin_r b (fold_right Rmin a l)); lra|apply Rmin_l|pose proof (IH2 x ltac:(right; auto)); pose proof (Rmin_r b (fold_right Rmin a l)); lra].
Qed.
Lemma maximum_in l : l <> [] -> In (maximum l) l /\ forall x, In x l -> x <= maximum l.
Proof.
  destruct l as [|a l]; [congruence|]. intros _. unfold maximum. induction l as [|b l [IH1 IH2]]; cbn [fold_right]; [cbn; split; [auto|intros x [<-|[]]; lra]|]. split.
  - apply (Rmax_case b (fold_right Rmax a l) (fun z => In z (a :: b :: l))); [cbn; auto|]. destruct IH1; [left; auto|right; right; auto].
  - intros x [<-|[<-|H]]; [pose proof (IH2 a ltac:(left; auto)); pose proof (Rmax_r b (fold_right Rmax a l)); lra|apply Rmax_l|pose proof (IH2 x ltac:(right; auto)); pose proof (Rmax_r b (fold_right Rmax a l)); lra].
Qed.
Lemma in_pixels {A} (r : raster A) x : In x (pixels r) <-> exists i j, (i < rs_height r)%nat /\ (j < rs_width r)%nat /\ x = rs_pixel r i j.
Proof.
  unfold pixels. rewrite in_flat_map. split.
  - intros (i & Hi & H). apply in_map_iff in H. destruct H as (j & <- & Hj). apply in_seq in Hi, Hj. exists i, j. split; [lia|]. split; [lia|]. reflexivity.
  - intros (i & j & Hi & Hj & ->). exists i. split; [apply in_seq; lia|]. apply in_map. apply in_seq. lia.
Qed.
(** C111: the aligner sees an image of bytes as the network saw it in training if and only if the image has both
    the bytes 0 and 255 *)
Theorem seen_as_trained (r : raster Z) : has_pixels r -> (forall i j, (i < rs_height r)%nat -> (j < rs_width r)%nat -> (0 <= rs_pixel r i j <= 255)%Z) ->
  ((forall i j, (i < rs_height r)%nat -> (j < rs_width r)%nat ->
      rs_pixel (normalize (raster_map IZR r)) i j = Some (convert_value (Byte (rs_pixel r i j)))) <->
   (exists i j, (i < rs_height r)%nat /\ (j < rs_width r)%nat /\ rs_pixel r i j = 0%Z) /\
   (exists i j, (i < rs_height r)%nat /\ (j < rs_width r)%nat /\ rs_pixel r i j = 255%Z)).
Proof.
  intros [Hh Hw] Hb. set (s := raster_map IZR r).
  assert (Np : pixels s <> []). { intros E. assert (H : In (rs_pixel s 0 0) (pixels s)) by (apply in_pixels; exists 0%nat, 0%nat; auto). rewrite E in H. destruct H. }
  destruct (minimum_in _ Np) as [Mi Ml]. destruct (maximum_in _ Np) as [Xi Xl]. apply in_pixels in Mi, Xi. destruct Mi as (i0 & j0 & Hi0 & Hj0 & E0). destruct Xi as (i1 & j1 & Hi1 & Hj1 & E1).
  unfold normalize. cbn [raster_map rs_pixel]. set (mi := minimum (pixels s)) in *. set (ma := maximum (pixels s)) in *. cbn [s raster_map rs_pixel rs_height rs_width] in E0, E1, Hi0, Hj0, Hi1, Hj1. cbn [convert_value]. split.
  - intros H. pose proof (H i0 j0 Hi0 Hj0) as A. pose proof (H i1 j1 Hi1 Hj1) as B. cbn [s raster_map rs_pixel] in A, B. rewrite <- E0 in A. rewrite <- E1 in B.
    destruct (Reqb (ma - mi) 0) eqn:Ez; [discriminate|]. assert (Nz : ma - mi <> 0) by (intros Z0; rewrite Z0 in Ez; unfold Reqb in Ez; destruct (Req_EM_T 0 0); congruence).
    injection A as A. injection B as B. replace ((mi - mi) / (ma - mi)) with 0 in A by (field; auto). replace ((ma - mi) / (ma - mi)) with 1 in B by (field; auto).
    split; [exists i0, j0|exists i1, j1]; (split; [auto|split; [auto|]]); apply eq_IZR; rewrite <- ?E0, <- ?E1; lra.
  - intros [(a & b & Ha & Hb1 & Eab) (c & d & Hc & Hd & Ecd)].
    assert (mi = 0). { pose proof (Ml 0). pose proof (Hb i0 j0 Hi0 Hj0) as B0. assert (In 0 (pixels s)) by (apply in_pixels; exists a, b; cbn; rewrite Eab; auto). rewrite E0 in *. destruct B0 as [B0 _]. apply IZR_le in B0. specialize (H H0). lra. }
    assert (ma = 255). { pose proof (Xl 255). pose proof (Hb i1 j1 Hi1 Hj1) as B0. assert (In 255 (pixels s)) by (apply in_pixels; exists c, d; cbn; rewrite Ecd; auto). rewrite E1 in *. destruct B0 as [_ B0]. apply IZR_le in B0. specialize (H0 H1). lra. }
    intros i j Hi Hj. rewrite H, H0. unfold Reqb. destruct (Req_EM_T (255 - 0) 0); [lra|]. f_equal. rewrite !Rminus_0_r. reflexivity.
Qed.
Print Assumptions detection_pixels.
Print Assumptions alignment_pixels.
Print Assumptions right_size.
Print Assumptions no_pixels.
Print Assumptions label_targets.
Print Assumptions labels_told_apart.
Print Assumptions processes_share.
Print Assumptions seen_as_trained.

(** a pixel of a 2 x 3 image with silicon in a corner, in 4 x 4; two processes *)
Example learning_data_nonvacuous :
  let e := mkdetection (mkraster 2 3 (fun i j => (i, j))) (mkraster 2 3 (fun i j => if (i + j =? 0)%nat then 14%Z else if (i =? 0)%nat then 6%Z else 7%Z)) in
  has_pixels (de_image e) /\ same_shape (de_image e) (de_mask e) /\
  (exists e', detection_transform 4 e = Ok e' /\ rs_pixel (de_image e') 1 2 = (0, 1)%nat /\ rs_pixel (de_mask e') 1 0 = [0; 0; 1] /\ rs_pixel (de_mask e') 3 3 = [0; 0; 0]) /\
  process_start 5 2 1 = 5%nat /\ process_start 1 2 0 = 0%nat.
Proof.
  cbv zeta. split; [split; cbn; lia|]. split; [split; reflexivity|]. split; [|split; reflexivity]. eexists. split; [reflexivity|]. repeat split; reflexivity.
Qed.
