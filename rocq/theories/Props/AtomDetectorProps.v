(** C98: the stand-alone atom detector *)
From Coq Require Import Reals ZArith List Bool Lia Lra Arith.
From Flocq Require Import Core IEEE754.Binary IEEE754.Bits.
From Verif Require Import Base.Prelude Base.Rounding Model.Constants Model.MicroscopeUtils Model.ImageAligner Model.AtomDetector
  Spec.Grids Spec.Detection Spec.AtomDetection Proofs.BaseFacts Proofs.RoundingFacts Props.DetectionProps.
Import ListNotations.
Open Scope R_scope.

(** * Bits *)
Lemma bits_split b : b = ((b / 2 ^ 23) * 2 ^ 23 + b mod 2 ^ 23)%Z /\ (0 <= b mod 2 ^ 23 < 2 ^ 23)%Z.
Proof. split; [rewrite Z.mul_comm; apply Z.div_mod; lia|apply Z.mod_pos_bound; lia]. Qed.
(** they are read as IEEE 754 says, for those of finite numbers that are not negative *)
Theorem bits_ieee b : (0 <= b < 255 * 2 ^ 23)%Z -> bits_value b = B2R 24 128 (b32_of_bits b).
Proof.
  intros H. unfold b32_of_bits, binary_float_of_bits. rewrite B2R_FF2B. unfold binary_float_of_bits_aux, split_bits.
  destruct (bits_split b) as [E M].
  assert (D : (0 <= b / 2 ^ 23 < 255)%Z) by (split; [apply Z.div_pos; lia|apply Z.div_lt_upper_bound; lia]).
  replace (2 ^ 23 * 2 ^ 8 <=? b)%Z with false by (symmetry; apply Z.leb_gt; lia).
  replace ((b / 2 ^ 23) mod 2 ^ 8)%Z with (b / 2 ^ 23)%Z by (symmetry; apply Z.mod_small; lia).
  unfold bits_value. destruct (b / 2 ^ 23 =? 0)%Z eqn:Z0.
  - apply Z.eqb_eq in Z0. rewrite Z0. cbn [Zeq_bool Z.compare]. destruct (b mod 2 ^ 23)%Z as [|p|p]; [cbn; ring|reflexivity|lia].
  - apply Z.eqb_neq in Z0. replace (Zeq_bool (b / 2 ^ 23) 0) with false by (symmetry; apply Zeq_is_eq_bool_false || (destruct (Zeq_bool (b / 2 ^ 23) 0) eqn:Q; auto; apply Zeq_bool_eq in Q; lia)).
    replace (Zeq_bool (b / 2 ^ 23) (2 ^ 8 - 1)) with false
      by (destruct (Zeq_bool (b / 2 ^ 23) (2 ^ 8 - 1)) eqn:Q; auto; apply Zeq_bool_eq in Q; lia).
    rewrite (Z.add_comm (b mod 2 ^ 23)). destruct (2 ^ 23 + b mod 2 ^ 23)%Z as [|p|p] eqn:Q; try lia.
    unfold FF2R, F2R. cbn [cond_Zopp Fnum Fexp]. f_equal. f_equal. change (SpecFloat.emin (23 + 1) (2 ^ (8 - 1))) with (-149)%Z. lia.
Qed.
Lemma xor_exponent e : (0 <= e <= 127)%Z -> Z.lxor e 127 = (127 - e)%Z.
Proof.
  intros H. assert (A : forallb (fun k => (Z.lxor (Z.of_nat k) 127 =? 127 - Z.of_nat k)%Z) (seq 0 128) = true) by (vm_compute; reflexivity).
  rewrite forallb_forall in A. specialize (A (Z.to_nat e)). rewrite in_seq in A. specialize (A ltac:(lia)).
  apply Z.eqb_eq in A. rewrite Z2Nat.id in A by lia. exact A.
Qed.
Lemma xor_one_div b : (Z.lxor b one_bits / 2 ^ 23 = Z.lxor (b / 2 ^ 23) 127)%Z.
Proof.
  rewrite <- !Z.shiftr_div_pow2 by lia. rewrite Z.shiftr_lxor. f_equal.
Qed.
Lemma xor_one_mod b : (Z.lxor b one_bits mod 2 ^ 23 = b mod 2 ^ 23)%Z.
Proof.
  rewrite <- !Z.land_ones by lia. apply Z.bits_inj'. intros n Hn. rewrite !Z.land_spec, Z.lxor_spec.
  destruct (Z.testbit (Z.ones 23) n) eqn:T; rewrite ?andb_false_r; auto. rewrite !andb_true_r.
  assert (n < 23)%Z. { destruct (Z_lt_le_dec n 23) as [|L]; auto. rewrite Z.ones_spec_high in T by lia. discriminate. }
  replace (Z.testbit one_bits n) with false; [apply xorb_false_r|].
  symmetry. unfold one_bits. rewrite <- Z.shiftl_mul_pow2 by lia. apply Z.shiftl_spec_low. auto.
Qed.

Lemma probability_split b : probability b -> (0 <= b / 2 ^ 23 <= 127)%Z /\ (b / 2 ^ 23 = 127 -> b mod 2 ^ 23 = 0)%Z.
Proof.
  intros [H0 H1]. destruct (bits_split b) as [E M]. split; [split; [apply Z.div_pos; lia|]|].
  - apply Z.div_le_upper_bound; lia.
  - intros Q. rewrite Q in E. lia.
Qed.
Lemma two23 : bpow radix2 23 = IZR (2 ^ 23). Proof. reflexivity. Qed.
(** the value of an exponent field and a mantissa *)
Lemma value_normal b : (0 < b / 2 ^ 23)%Z ->
  bpow radix2 (b / 2 ^ 23 - 127) <= bits_value b < bpow radix2 (b / 2 ^ 23 - 126) /\
  bits_value b = bpow radix2 (b / 2 ^ 23 - 127) * (1 + IZR (b mod 2 ^ 23) / bpow radix2 23).
Proof.
  intros H. destruct (bits_split b) as [_ M]. unfold bits_value.
  replace (b / 2 ^ 23 =? 0)%Z with false by (symmetry; apply Z.eqb_neq; lia).
  set (e := (b / 2 ^ 23)%Z) in *. set (m := (b mod 2 ^ 23)%Z) in *.
  assert (P : bpow radix2 (e - 150) * bpow radix2 23 = bpow radix2 (e - 127)) by (rewrite <- bpow_plus; f_equal; lia).
  assert (P2 : bpow radix2 (e - 126) = 2 * bpow radix2 (e - 127)).
  { replace (e - 126)%Z with (1 + (e - 127))%Z by lia. rewrite bpow_plus. reflexivity. }
  pose proof (bpow_gt_0 radix2 (e - 150)) as G. rewrite plus_IZR, <- two23.
  assert (M' : 0 <= IZR m < bpow radix2 23). { rewrite two23. split; [apply IZR_le; lia|apply IZR_lt; lia]. }
  rewrite P2, <- P. split; [split; nra|]. field. pose proof (bpow_gt_0 radix2 23). lra.
Qed.
Lemma value_subnormal b : (b / 2 ^ 23 = 0)%Z -> 0 <= bits_value b < tiny.
Proof.
  intros H. destruct (bits_split b) as [_ M]. unfold bits_value. rewrite H. cbn [Z.eqb].
  pose proof (bpow_gt_0 radix2 (-149)) as G. unfold tiny. replace (-126)%Z with (23 + -149)%Z by lia. rewrite bpow_plus, two23.
  assert (M' : 0 <= IZR (b mod 2 ^ 23) < IZR (2 ^ 23)) by (split; [apply IZR_le; lia|apply IZR_lt; lia]). split; nra.
Qed.
(** C98: bits of probabilities: between 0 and 1, only those of 1.0 are 1 *)
Theorem probability_value b : probability b -> 0 <= bits_value b <= 1 /\ (bits_value b = 1 <-> b = (127 * 2 ^ 23)%Z) /\
  (bits_value b < tiny <-> (b < 2 ^ 23)%Z).
Proof.
  intros P. destruct (probability_split b P) as [E EM]. destruct (bits_split b) as [S M].
  assert (T : tiny <= 1 / 2). { unfold tiny. replace (1 / 2) with (bpow radix2 (-1)) by (cbn; lra). apply bpow_le. lia. }
  destruct (Z.eq_dec (b / 2 ^ 23) 0) as [Z|Z].
  - destruct (value_subnormal b Z) as [A B]. split; [lra|]. split.
    + split; [lra|]. intros ->. cbn in Z. discriminate.
    + split; [|auto]. intros _. rewrite Z in S. lia.
  - destruct (value_normal b ltac:(lia)) as [[A B] V]. destruct (Z.eq_dec (b / 2 ^ 23) 127) as [F|F].
    + assert (Eb : b = (127 * 2 ^ 23)%Z) by (rewrite S, F, EM; lia). assert (V1 : bits_value b = 1).
      { rewrite V, F, EM by auto. cbn. lra. }
      rewrite V1. split; [lra|]. split; [tauto|]. split; [lra|lia].
    + assert (U : bpow radix2 (b / 2 ^ 23 - 126) <= bpow radix2 0) by (apply bpow_le; lia). cbn [bpow] in U.
      assert (W : tiny <= bpow radix2 (b / 2 ^ 23 - 127)) by (apply bpow_le; lia).
      assert (0 < tiny) by (apply bpow_gt_0).
      split; [lra|]. split.
      * split; [lra|]. intros ->. exfalso. apply F. reflexivity.
      * split; [lra|]. intros L. exfalso. apply Z. apply Z.div_small. destruct P. lia.
Qed.

Lemma uint8_one x : 0 <= x < 2 -> (to_uint8 x = 1%Z <-> 1 <= x).
Proof.
  intros H. unfold to_uint8. destruct (trunc_bounds x ltac:(lra)) as [[A B] C].
  assert (D : (trunc x < 2)%Z) by (apply lt_IZR; lra). rewrite Z.mod_small by lia. split.
  - intros Q. rewrite Q in A. exact A.
  - intros L. assert (0 < trunc x)%Z by (apply lt_IZR; lra). lia.
Qed.
Lemma xor_zero b : Z.lxor b zero_bits = b. Proof. apply Z.lxor_0_r. Qed.
(** * what counts as silicon *)
Lemma masked_silicon_iff p cov : probability (snd p) ->
  (masked_silicon p cov = 1%Z <-> (if cov : bool then p_silicon p < tiny else p_silicon p = 1)).
Proof.
  destruct p as [[bg c] si]. unfold p_silicon, masked_silicon. cbn [snd]. intros P.
  destruct (probability_value si P) as (V & V1 & VT). destruct cov.
  - destruct (probability_split si P) as [E EM]. rewrite VT. set (x := Z.lxor si one_bits).
    assert (Ex : (x / 2 ^ 23 = 127 - si / 2 ^ 23)%Z) by (unfold x; rewrite xor_one_div; apply xor_exponent; auto).
    assert (Mx : (x mod 2 ^ 23 = si mod 2 ^ 23)%Z) by (apply xor_one_mod).
    destruct (Z.eq_dec (si / 2 ^ 23) 0) as [Z|Z].
    + assert (L : (si < 2 ^ 23)%Z) by (destruct (bits_split si) as [S M]; rewrite Z in S; lia).
      destruct (value_normal x ltac:(lia)) as [[A B] _]. rewrite Ex, Z in A, B.
      replace (127 - 0 - 127)%Z with 0%Z in A by lia. replace (127 - 0 - 126)%Z with 1%Z in B by lia. change (bpow radix2 0) with 1 in A.
      change (bpow radix2 1) with 2 in B. rewrite uint8_one; [tauto|lra].
    + assert (L : ~ (si < 2 ^ 23)%Z) by (intros L; apply Z; apply Z.div_small; destruct P; lia).
      assert (X : 0 <= bits_value x < 1).
      { destruct (Z.eq_dec (x / 2 ^ 23) 0) as [Zx|Zx].
        - pose proof (value_subnormal x Zx). assert (tiny < 1); [|lra]. unfold tiny. change 1 with (bpow radix2 0). apply bpow_lt. lia.
        - destruct (value_normal x ltac:(lia)) as [[A B] _]. pose proof (bpow_gt_0 radix2 (x / 2 ^ 23 - 127)).
          assert (bpow radix2 (x / 2 ^ 23 - 126) <= bpow radix2 0) by (apply bpow_le; lia). cbn [bpow] in *. lra. }
      rewrite uint8_one by lra. split; [lra|lia].
  - rewrite xor_zero. rewrite uint8_one by lra. lra.
Qed.
Lemma carbon_pixel_iff p : carbon_pixel p = true <-> enough_carbon p.
Proof.
  destruct p as [[bg c] si]. unfold carbon_pixel, enough_carbon, p_carbon. cbn [fst snd].
  replace (25 / 1000) with (1 / 40) by field. apply Rltb_true.
Qed.
Lemma dilate_iff n r i j : rs_pixel (dilate n r) i j = true <->
  exists i2 j2, (i2 <= i <= i2 + n)%nat /\ (j2 <= j <= j2 + n)%nat /\ rs_pixel r i2 j2 = true.
Proof.
  cbn [dilate rs_pixel]. rewrite existsb_exists. split.
  - intros (a & Ia & H). apply existsb_exists in H. destruct H as (b & Ib & H). apply in_seq in Ia, Ib.
    rewrite !andb_true_iff, !Nat.leb_le in H. exists (i - a)%nat, (j - b)%nat. repeat split; try lia. apply H.
  - intros (i2 & j2 & Hi & Hj & H). exists (i - i2)%nat. rewrite in_seq. split; [lia|]. apply existsb_exists. exists (j - j2)%nat.
    rewrite in_seq. split; [lia|]. rewrite !andb_true_iff, !Nat.leb_le. repeat split; try lia.
    replace (i - (i - i2))%nat with i2 by lia. replace (j - (j - j2))%nat with j2 by lia. exact H.
Qed.
Lemma erode_iff n r i j : rs_pixel (erode n r) i j = true <->
  forall i1 j1, (i1 <= i <= i1 + n)%nat -> (j1 <= j <= j1 + n)%nat -> rs_pixel r i1 j1 = true.
Proof.
  cbn [erode rs_pixel]. rewrite forallb_forall. split.
  - intros H i1 j1 Hi Hj. specialize (H (i - i1)%nat). rewrite in_seq, forallb_forall in H. specialize (H ltac:(lia) (j - j1)%nat).
    rewrite in_seq in H. specialize (H ltac:(lia)). replace (i - i1 <=? i)%nat with true in H by (symmetry; apply Nat.leb_le; lia).
    replace (j - j1 <=? j)%nat with true in H by (symmetry; apply Nat.leb_le; lia). cbn [andb implb] in H.
    replace (i - (i - i1))%nat with i1 in H by lia. replace (j - (j - j1))%nat with j1 in H by lia. exact H.
  - intros H a Ia. apply in_seq in Ia. apply forallb_forall. intros b Ib. apply in_seq in Ib.
    destruct (a <=? i)%nat eqn:La; [|reflexivity]. destruct (b <=? j)%nat eqn:Lb; [|reflexivity]. apply Nat.leb_le in La, Lb.
    cbn [andb implb]. apply H; lia.
Qed.
Lemma covered_iff probs i j : rs_pixel (dilated_carbon (raster_map carbon_pixel probs)) i j = true <-> covered probs i j.
Proof.
  unfold dilated_carbon, covered. rewrite erode_iff. split.
  - intros H i1 j1 Hi Hj. specialize (H i1 j1 Hi Hj). apply dilate_iff in H. destruct H as (i2 & j2 & A & B & C).
    exists i2, j2. split; [exact A|]. split; [exact B|]. apply carbon_pixel_iff. exact C.
  - intros H i1 j1 Hi Hj. apply dilate_iff. destruct (H i1 j1 Hi Hj) as (i2 & j2 & A & B & C). exists i2, j2.
    split; [exact A|]. split; [exact B|]. apply carbon_pixel_iff. exact C.
Qed.

Lemma combine_kinds {A} (f : A -> pt) (y z : Z) l l' :
  combine (map f l ++ map f l') (repeat y (length l) ++ repeat z (length l')) = map (fun m => (f m, y)) l ++ map (fun m => (f m, z)) l'.
Proof.
  induction l as [|m l IH]; cbn [map length repeat app combine].
  - induction l' as [|q l' IH]; cbn; [reflexivity|]. f_equal. exact IH.
  - f_equal. exact IH.
Qed.

Section Detector.
Variable network : frame -> res (raster (Z * Z * Z)).
Variable contours : raster bool -> nat -> list moments.
Notation detect := (detect_atoms network contours).
Notation centre := (centroid 256 256).

(** C98: the outcomes: carbon atoms at the centres of the contours of the pixels
    with enough carbon, then silicon; both kinds or none must be found *)
Theorem detector_outcomes image probs : (0 < rs_height image)%nat -> (0 < rs_width image)%nat ->
  (forall f, network f = Ok probs) -> (forall i j, probability (snd (rs_pixel probs i j))) ->
  exists carbon silicon, mask_of enough_carbon probs carbon /\
    rs_height silicon = rs_height probs /\ rs_width silicon = rs_width probs /\
    (forall i j, rs_pixel silicon i j = true <-> counts_as_silicon probs i j) /\
    let cs := contours carbon 25 in
    let ss := contours silicon 140 in
    (cs = [] -> ss = [] -> detect image = Ok (mkgrid [] [])) /\
    (cs = [] -> ss <> [] -> detect image = Raise ValueError) /\
    (cs <> [] -> ss = [] -> detect image = Raise ValueError) /\
    (cs <> [] -> ss <> [] -> exists g, detect image = Ok g /\ wf_grid g /\
       atoms g = map (fun m => (centre m, 6%Z)) cs ++ map (fun m => (centre m, 14%Z)) ss).
Proof.
  intros Hh Hw Hn Hp.
  assert (Er : exists r, resize_nearest image 256 256 = Ok r).
  { unfold resize_nearest. replace (rs_height image =? 0)%nat with false by (symmetry; apply Nat.eqb_neq; lia).
    replace (rs_width image =? 0)%nat with false by (symmetry; apply Nat.eqb_neq; lia). eexists. reflexivity. }
  destruct Er as (r & Er).
  set (carbon := raster_map (fun v => (v =? 1)%Z) (raster_map (fun b : bool => if b then 1%Z else 0%Z) (raster_map carbon_pixel probs))).
  set (mask := dilated_carbon (raster_map carbon_pixel probs)).
  set (silicon := raster_map (fun v => (v =? 1)%Z)
    (mkraster (rs_height probs) (rs_width probs) (fun i j => masked_silicon (rs_pixel probs i j) (rs_pixel mask i j)))).
  assert (Ed : detect image = bind (concatenate_points (map centre (contours carbon 25)) (map centre (contours silicon 140)))
    (fun ps => Ok (mkgrid ps (repeat CARBON (length (map centre (contours carbon 25))) ++ repeat SILICON (length (map centre (contours silicon 140))))))).
  { unfold detect_atoms. rewrite Er. cbn [bind]. rewrite Hn. reflexivity. }
  exists carbon, silicon. split; [|split; [reflexivity|split; [reflexivity|split]]].
  { split; [reflexivity|]. split; [reflexivity|]. intros i j. unfold carbon, raster_map. cbn [rs_pixel].
    rewrite <- carbon_pixel_iff. destruct (carbon_pixel _); cbn; split; auto; discriminate. }
  { intros i j. unfold silicon, raster_map. cbn [rs_pixel]. rewrite Z.eqb_eq, masked_silicon_iff by apply Hp. unfold counts_as_silicon.
    rewrite <- covered_iff. fold mask. destruct (rs_pixel mask i j); split; intros H.
    - right. auto.
    - destruct H as [[N _]|[_ H]]; auto. exfalso. apply N. reflexivity.
    - left. split; [discriminate|auto].
    - destruct H as [[_ H]|[N _]]; auto. discriminate. }
  cbv zeta. rewrite Ed. set (cs := contours carbon 25). set (ss := contours silicon 140).
  destruct cs as [|m cs], ss as [|q ss]; cbn [map concatenate_points bind].
  - split; [reflexivity|]. split; [congruence|]. split; congruence.
  - split; [discriminate|]. split; [reflexivity|]. split; congruence.
  - split; [discriminate|]. split; [congruence|]. split; [reflexivity|congruence].
  - split; [discriminate|]. split; [discriminate|]. split; [discriminate|]. intros _ _. eexists. split; [reflexivity|].
    cbn [length]. rewrite !map_length. split.
    + unfold wf_grid. cbn [positions numbers]. rewrite !app_length. cbn [length]. rewrite !map_length, !repeat_length. reflexivity.
    + exact (combine_kinds centre 6%Z 14%Z (m :: cs) (q :: ss)).
Qed.
Theorem detector_empty image : rs_height image = 0%nat \/ rs_width image = 0%nat -> detect image = Raise ValueError.
Proof.
  intros H. unfold detect_atoms, resize_nearest. destruct H as [->| ->]; rewrite ?orb_true_r; reflexivity.
Qed.
(** C98: a contour without area is an atom in the corner *)
Theorem corner_atoms m : m00 m = 0 -> centre m = mkpt 0 1.
Proof. apply centroid_flat. Qed.
(** C98: the others are within a pixel of their centres *)
Theorem atom_places m : solid_in 256 256 m -> within (/ 256) (centre m) (seen_centre 256 256 m).
Proof.
  intros H. destruct (centroid_near 256 m H) as [A B]. replace (INR 256) with 256 in * by (rewrite INR_IZR_INZ; reflexivity).
  unfold within. split; apply Rabs_def1; lra.
Qed.

(** C98, false: silicon away from carbon is found.  Whatever the network thinks, unless it is
    certain, there is none; so an image with carbon cannot be processed. *)
Theorem uncertain_silicon_refuted image probs :
  (0 < rs_height image)%nat -> (0 < rs_width image)%nat -> (forall f, network f = Ok probs) ->
  (forall i j, probability (snd (rs_pixel probs i j))) ->
  (forall i j, tiny <= p_silicon (rs_pixel probs i j) < 1) ->
  (forall mask k, (forall i j, rs_pixel mask i j = false) -> contours mask k = []) ->
  (forall mask, mask_of enough_carbon probs mask -> contours mask 25 <> []) ->
  detect image = Raise ValueError.
Proof.
  intros Hh Hw Hn Hp Hu Hc Hx. destruct (detector_outcomes image probs Hh Hw Hn Hp) as (carbon & silicon & Mc & _ & _ & Ms & _ & _ & H & _).
  apply H; [apply Hx; auto|]. apply Hc. intros i j. destruct (rs_pixel silicon i j) eqn:E; auto. apply Ms in E.
  specialize (Hu i j). destruct E as [[_ E]|[_ E]]; lra.
Qed.
End Detector.

(** C98, false: the mask covers the carbon.  That of a single pixel is two to four rows below
    and columns to the right of it. *)
Theorem mask_displaced_refuted probs i0 j0 : (2 <= i0)%nat -> (2 <= j0)%nat ->
  (forall i j, enough_carbon (rs_pixel probs i j) <-> i = i0 /\ j = j0) ->
  forall i j, covered probs i j <-> (i0 + 2 <= i <= i0 + 4)%nat /\ (j0 + 2 <= j <= j0 + 4)%nat.
Proof.
  intros Hi Hj H i j. unfold covered. split.
  - intros C. assert (A : forall i1 j1, (i1 <= i <= i1 + 2)%nat -> (j1 <= j <= j1 + 2)%nat -> (i0 <= i1 <= i0 + 4)%nat /\ (j0 <= j1 <= j0 + 4)%nat).
    { intros i1 j1 L1 L2. destruct (C i1 j1 L1 L2) as (i2 & j2 & B1 & B2 & B3). apply H in B3. destruct B3 as [-> ->]. auto. }
    destruct (A i j) as [A1 A2]; try lia. destruct (A (i - 2)%nat (j - 2)%nat) as [A3 A4]; lia.
  - intros [L1 L2] i1 j1 L3 L4. exists i0, j0. split; [lia|]. split; [lia|]. apply H. auto.
Qed.

(** * Examples *)
Example mask_nonvacuous : let probs := mkraster 256 256 (fun i j : nat => (0, (if (i =? 5)%nat && (j =? 5)%nat then one_bits else 0), 0)%Z) in
  forall i j, enough_carbon (rs_pixel probs i j) <-> i = 5%nat /\ j = 5%nat.
Proof.
  intros probs i j. unfold probs, enough_carbon, p_carbon. cbn [rs_pixel fst snd].
  assert (F : 0 < f32 (1 / 40) < 1).
  { assert (A : f32 (1 / 64) = 1 / 64). { apply f32_id. replace (1 / 64) with (bpow radix2 (-6)) by (cbn; lra). apply generic_format_bpow. unfold FLT_exp. lia. }
    assert (B : f32 (1 / 2) = 1 / 2). { apply f32_id. replace (1 / 2) with (bpow radix2 (-1)) by (cbn; lra). apply generic_format_bpow. unfold FLT_exp. lia. }
    pose proof (f32_mono (1 / 64) (1 / 40)). pose proof (f32_mono (1 / 40) (1 / 2)). lra. }
  destruct ((i =? 5)%nat && (j =? 5)%nat) eqn:E.
  - apply andb_true_iff in E. rewrite !Nat.eqb_eq in E. split; auto. intros _.
    destruct (probability_value one_bits) as (_ & V & _); [unfold probability, one_bits; lia|]. rewrite (proj2 V) by reflexivity. lra.
  - apply andb_false_iff in E. rewrite !Nat.eqb_neq in E. split; [|intros []; lia]. intros Q.
    assert (Z : bits_value 0 = 0) by (unfold bits_value; cbn; ring). rewrite Z in Q. lra.
Qed.
(** bits of 0.25, 0.5 and 0.75 *)
Example bits_nonvacuous : probability (125 * 2 ^ 23) /\ bits_value (125 * 2 ^ 23) = 1 / 4 /\
  probability (126 * 2 ^ 23) /\ bits_value (126 * 2 ^ 23) = 1 / 2 /\ bits_value (126 * 2 ^ 23 + 2 ^ 22) = 3 / 4.
Proof.
  assert (V : forall e m, (0 < e)%Z -> (0 <= m < 2 ^ 23)%Z ->
    bits_value (e * 2 ^ 23 + m) = bpow radix2 (e - 127) * (1 + IZR m / bpow radix2 23)).
  { intros e m He Hm. assert (D : ((e * 2 ^ 23 + m) / 2 ^ 23 = e)%Z).
    { rewrite Z.add_comm, Z.div_add by lia. rewrite Z.div_small by lia. lia. }
    assert (M : ((e * 2 ^ 23 + m) mod 2 ^ 23 = m)%Z).
    { rewrite Z.add_comm, Z.mod_add by lia. apply Z.mod_small; lia. }
    destruct (value_normal (e * 2 ^ 23 + m)) as [_ Q]; [lia|]. rewrite D, M in Q. exact Q. }
  split; [unfold probability; lia|]. split.
  { replace (125 * 2 ^ 23)%Z with (125 * 2 ^ 23 + 0)%Z by lia. rewrite V by lia. cbn. lra. }
  split; [unfold probability; lia|]. split.
  { replace (126 * 2 ^ 23)%Z with (126 * 2 ^ 23 + 0)%Z by lia. rewrite V by lia. cbn. lra. }
  rewrite V by lia. cbn. lra.
Qed.
(** a quarter carbon and silicon everywhere; OpenCV finds a blob in masks that have the first pixel *)
Example detector_nonvacuous : let probs := mkraster 256 256 (fun _ _ : nat => (126 * 2 ^ 23, 125 * 2 ^ 23, 125 * 2 ^ 23)%Z) in
  let contours := fun (mask : raster bool) (k : nat) => if rs_pixel mask 0 0 then [mkmoments 1 5 5] else [] in
  (forall i j, probability (snd (rs_pixel probs i j))) /\ (forall i j, tiny <= p_silicon (rs_pixel probs i j) < 1) /\
  (forall mask k, (forall i j, rs_pixel mask i j = false) -> contours mask k = []) /\
  (forall mask, mask_of enough_carbon probs mask -> contours mask 25%nat <> []) /\
  detect_atoms (fun _ => Ok probs) contours (mkraster 10 10 (fun i j => INR (i + j))) = Raise ValueError.
Proof.
  intros probs contours. destruct bits_nonvacuous as (B1 & B2 & _).
  assert (P1 : forall i j, probability (snd (rs_pixel probs i j))) by (intros; exact B1).
  assert (T : tiny <= 1 / 4). { unfold tiny. replace (1 / 4) with (bpow radix2 (-2)) by (cbn; lra). apply bpow_le. lia. }
  assert (P2 : forall i j, tiny <= p_silicon (rs_pixel probs i j) < 1) by (intros; change (tiny <= bits_value (125 * 2 ^ 23) < 1); rewrite B2; lra).
  assert (P3 : forall mask k, (forall i j, rs_pixel mask i j = false) -> contours mask k = []) by (intros mask k H; unfold contours; rewrite H; reflexivity).
  assert (F : f32 (1 / 40) <= 1 / 8).
  { apply Rle_trans with (f32 (1 / 8)); [apply f32_mono; lra|]. right. apply f32_id.
    replace (1 / 8) with (bpow radix2 (-3)) by (cbn; lra). apply generic_format_bpow. unfold FLT_exp. lia. }
  assert (P4 : forall mask, mask_of enough_carbon probs mask -> contours mask 25%nat <> []).
  { intros mask (_ & _ & M). unfold contours. assert (Q : rs_pixel mask 0 0 = true); [|rewrite Q; discriminate].
    apply M. change (f32 (1 / 40) < bits_value (125 * 2 ^ 23)). rewrite B2. lra. }
  repeat split; auto; try apply P2; try apply P1.
  apply (uncertain_silicon_refuted (fun _ => Ok probs) contours _ probs); auto; cbn [rs_height rs_width]; lia.
Qed.

Print Assumptions bits_ieee.
Print Assumptions probability_value.
Print Assumptions detector_outcomes.
Print Assumptions detector_empty.
Print Assumptions corner_atoms.
Print Assumptions atom_places.
Print Assumptions uncertain_silicon_refuted.
Print Assumptions mask_displaced_refuted.
