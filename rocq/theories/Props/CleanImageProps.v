(** The clean image of a grid of atoms (imaging.generate_clean_image). *)
From Coq Require Import Reals ZArith List Bool Lia Lra Arith.
From Flocq Require Import Core.Raux.
From Verif Require Import Base.Prelude Base.Rounding Model.Constants Model.MicroscopeUtils Model.ImageAligner Model.Imaging
  Spec.Grids Spec.Views Spec.Imaging Proofs.BaseFacts Proofs.ClumpFacts Proofs.LossFacts
  Props.ClumpProps Props.EnsembleProps Props.ImageAlignerProps.
Import ListNotations.
Open Scope R_scope.

(** ** Light before blurring *)

Lemma rsum_cons x l : rsum (x :: l) = x + rsum l.
Proof. reflexivity. Qed.
Lemma rsum_zeros {A} (l : list A) : rsum (map (fun _ => 0) l) = 0.
Proof. induction l as [|x l IH]; cbn [map]; [reflexivity|]. rewrite rsum_cons, IH; lra. Qed.

Lemma rsum_single (w : Z -> R) z zs : NoDup zs -> In z zs ->
  rsum (map (fun y => if Z.eqb y z then w y else 0) zs) = w z.
Proof.
  induction zs as [|y zs IH]; intros Hn Hi; [destruct Hi|].
  inversion Hn as [|? ? Hy Hn']; subst; cbn [map]; rewrite rsum_cons. destruct Hi as [-> | Hi].
  - rewrite Z.eqb_refl.
    assert (E : rsum (map (fun y => if Z.eqb y z then w y else 0) zs) = 0).
    { clear - Hy; induction zs as [|x zs IH]; cbn [map]; [reflexivity|]. rewrite rsum_cons, IH by (intro; apply Hy; right; assumption).
      destruct (Z.eqb_spec x z); [|lra]. exfalso; apply Hy; left; assumption. }
    lra.
  - destruct (Z.eqb_spec y z) as [-> | Hne]; [contradiction|]. rewrite IH by assumption. lra.
Qed.

Lemma count_sum (P : pt -> bool) (w : Z -> R) zs (l : list (pt * Z)) : NoDup zs -> (forall a, In a l -> In (snd a) zs) ->
  rsum (map (fun z => INR (length (filter P (mask_select (map (Z.eqb z) (map snd l)) (map fst l)))) * w z) zs)
  = rsum (map (fun a => if P (fst a) then w (snd a) else 0) l).
Proof.
  intros Hn; induction l as [|[p z] l IH]; intro Hin; cbn [map snd fst mask_select].
  - transitivity (rsum (map (fun _ : Z => 0) zs)).
    + apply rsum_map_ext; intros; cbn; lra.
    + apply rsum_zeros.
  - rewrite rsum_cons.
    rewrite <- IH by (intros; apply Hin; right; assumption).
    transitivity (rsum (map (fun y => (if Z.eqb y z then (if P p then w y else 0) else 0) +
       INR (length (filter P (mask_select (map (Z.eqb y) (map snd l)) (map fst l)))) * w y) zs)).
    + apply rsum_map_ext; intros y _. destruct (Z.eqb y z); [|lra]. cbn [filter].
      destruct (P p); cbn [length]; [rewrite S_INR|]; lra.
    + rewrite rsum_map_plus, (rsum_single (fun y => if P p then w y else 0)); [reflexivity|assumption|].
      apply (Hin (p, z)); left; reflexivity.
Qed.

Lemma in_bin_spec b n i x : 0 <= b -> (i < n)%nat ->
  in_bin (- b) (1 + b) n i x = true <-> - b <= x <= 1 + b /\ pixel_along b n x = Z.of_nat i.
Proof.
  intros Hb Hi. unfold in_bin, linspace, pixel_along.
  assert (Hn : 0 < INR n) by (apply lt_0_INR; lia).
  rewrite S_INR.
  replace (1 + b - - b) with (1 + 2 * b) by ring.
  set (t := (x + b) / (1 + 2 * b) * INR n).
  set (q := (1 + 2 * b) / INR n).
  assert (Hq : 0 < q) by (apply Rdiv_lt_0_compat; lra).
  assert (Hx : x = - b + t * q) by (unfold t, q; field; lra).
  assert (Hhi : 1 + b = - b + INR n * q) by (unfold q; field; lra).
  rewrite andb_true_iff, orb_true_iff, andb_true_iff.
  assert (B : Rleb (- b + INR i * q) x = true <-> INR i <= t).
  { unfold Rleb; destruct (Rle_dec _ _) as [L | L]; (split; intro H; try discriminate; try reflexivity).
    - rewrite Hx in L; nra.
    - exfalso; apply L; rewrite Hx; nra. }
  assert (C : Rltb x (- b + (INR i + 1) * q) = true <-> t < INR i + 1).
  { unfold Rltb; destruct (Rlt_dec _ _) as [L | L]; (split; intro H; try discriminate; try reflexivity).
    - rewrite Hx in L; nra.
    - exfalso; apply L; rewrite Hx; nra. }
  rewrite B, C, Reqb_true, Nat.eqb_eq.
  assert (HIi : INR i + 1 <= INR n) by (rewrite <- S_INR; apply le_INR; lia).
  destruct (Req_EM_T x (1 + b)) as [E | E].
  - assert (Ht : t = INR n) by (rewrite Hx, Hhi in E; nra).
    rewrite Ht. split.
    + intros [H1 [H2 | [H2 H3]]]; [lra|]. split; [lra|]. lia.
    + intros [H1 H2]. split; [lra|]. right; split; [lia|assumption].
  - split.
    + intros [H1 [H2 | [_ H2]]]; [|contradiction]. split.
      * rewrite Hhi. pose proof (pos_INR i). split; [nra|]. assert (t <= INR n) by lra. nra.
      * rewrite INR_IZR_INZ in H1, H2. apply Zfloor_imp. rewrite plus_IZR. lra.
    + intros [[H1 H2] H3].
      assert (HZ : IZR (Zfloor t) = INR i) by (rewrite H3, INR_IZR_INZ; reflexivity).
      pose proof (Zfloor_lb t). pose proof (Zfloor_ub t). split; [lra|left; lra].
Qed.

Lemma pixel_along_range b n x : 0 <= b -> (0 < n)%nat -> - b <= x <= 1 + b -> (0 <= pixel_along b n x < Z.of_nat n)%Z.
Proof.
  intros Hb Hn Hx. unfold pixel_along. destruct (Req_EM_T x (1 + b)) as [E | E]; [lia|].
  assert (Hn' : 0 < INR n) by (apply lt_0_INR; lia).
  assert (Hd : 0 <= (x + b) / (1 + 2 * b) < 1).
  { assert (0 < / (1 + 2 * b)) by (apply Rinv_0_lt_compat; lra). split; [unfold Rdiv; nra|].
    apply Rmult_lt_reg_r with (1 + 2 * b); [lra|]. unfold Rdiv; rewrite Rmult_assoc, Rinv_l by lra. lra. }
  split.
  - apply Zfloor_lub. nra.
  - apply lt_IZR. rewrite <- INR_IZR_INZ. pose proof (Zfloor_lb ((x + b) / (1 + 2 * b) * INR n)). nra.
Qed.

Lemma in_margin_spec b p : in_margin b p = true <-> (- b <= px p <= 1 + b) /\ (- b <= py p <= 1 + b).
Proof.
  unfold in_margin, Rleb. rewrite !andb_true_iff.
  repeat match goal with |- context [Rle_dec ?a ?b] => destruct (Rle_dec a b) end; intuition (try discriminate; try lra).
Qed.

(** the light of an atom in a pixel, in terms of the pixel it is in *)
Lemma intensity_pixel g e n b i j : 0 <= b -> (i < n)%nat -> (j < n)%nat ->
  length (positions g) = length (numbers g) -> Forall (fun z => 0 < z)%Z (numbers g) ->
  rs_pixel (intensity_image g e n (- b) (1 + b)) i j
  = rsum (map (fun a => if in_margin b (fst a) && (pixel_along b n (px (fst a)) =? Z.of_nat i)%Z
                           && (pixel_along b n (py (fst a)) =? Z.of_nat j)%Z
                        then Rpower (IZR (snd a)) e else 0) (atoms_of g)).
Proof.
  intros Hb Hi Hj Hl Hz. cbn [intensity_image rs_pixel histogram2d].
  assert (H1 : map fst (atoms_of g) = positions g) by (apply map_fst_combine; assumption).
  assert (H2 : map snd (atoms_of g) = numbers g).
  { unfold atoms_of; clear - Hl. revert Hl; generalize (numbers g); induction (positions g) as [|p ps IH]; intros [|z zs]; cbn; intro; try discriminate; [reflexivity|].
    f_equal; auto. }
  pose proof (count_sum (fun p => in_bin (- b) (1 + b) n i (px p) && in_bin (- b) (1 + b) n j (py p))
             (fun z => power (IZR z) e) (nodup Z.eq_dec (numbers g)) (atoms_of g)) as C.
  rewrite H1, H2 in C. rewrite C; clear C.
  - apply rsum_map_ext. intros [p z] Hin; cbn [fst snd].
    assert (E : in_bin (- b) (1 + b) n i (px p) && in_bin (- b) (1 + b) n j (py p)
                = in_margin b p && (pixel_along b n (px p) =? Z.of_nat i)%Z && (pixel_along b n (py p) =? Z.of_nat j)%Z).
    { apply eq_true_iff_eq. rewrite !andb_true_iff, !in_bin_spec, in_margin_spec, !Z.eqb_eq by assumption. tauto. }
    rewrite E; clear E. match goal with |- (if ?c then _ else _) = _ => destruct c end; [|reflexivity].
    unfold power. destruct (Reqb (IZR z) 0) eqn:E0; [|reflexivity].
    exfalso. apply Reqb_true in E0. rewrite <- H2, Forall_map, Forall_forall in Hz. apply Hz in Hin; cbn in Hin.
    apply IZR_lt in Hin; lra.
  - apply NoDup_nodup.
  - intros a Ha. apply nodup_In. rewrite <- H2. apply in_map; assumption.
Qed.

(** ** Blurring along an axis *)

Lemma weighted_sum_numbers {A} (w x : A -> R) (v : A -> option R) l : (forall a, In a l -> v a = Some (x a)) ->
  weighted_sum (map (fun a => (w a, v a)) l) = Some (rsum (map (fun a => w a * x a) l)).
Proof.
  induction l as [|a l IH]; intro H; cbn; [reflexivity|].
  rewrite (H a) by (left; reflexivity). rewrite IH by (intros; apply H; right; assumption). reflexivity.
Qed.

Lemma reach_radius sigma : 0 < sigma -> Z.of_nat (kernel_radius sigma) = reach sigma /\ (0 <= reach sigma)%Z.
Proof.
  intro H. unfold kernel_radius, reach, trunc.
  rewrite Ztrunc_floor by lra.
  assert (0 <= Zfloor (4 * sigma + 1 / 2))%Z by (apply Zfloor_lub; lra).
  split; [apply Z2Nat.id|]; assumption.
Qed.
Lemma bell_gauss sigma k : 0 < sigma -> bell sigma k = gauss sigma k.
Proof. intro H; unfold bell, gauss; f_equal; field; lra. Qed.
Lemma kernel_spread sigma k : 0 < sigma -> In k (window (kernel_radius sigma)) -> kernel sigma k = spread sigma k.
Proof.
  intros H Hk. destruct (reach_radius sigma H) as [Hr H0].
  unfold window in Hk. apply in_map_iff in Hk. destruct Hk as (m & Hm & Hin). apply in_seq in Hin.
  unfold spread. destruct (Z.leb_spec (Z.abs k) (reach sigma)); [|lia].
  unfold kernel. rewrite bell_gauss by assumption. f_equal.
  unfold window. rewrite map_map.
  replace (Z.to_nat (2 * reach sigma + 1)) with (2 * kernel_radius sigma + 1)%nat by lia.
  f_equal. apply map_ext. intro q. rewrite bell_gauss, Hr by assumption. reflexivity.
Qed.
Lemma In_window r k : In k (window r) <-> (Z.abs k <= Z.of_nat r)%Z.
Proof.
  unfold window. rewrite in_map_iff. split.
  - intros (m & <- & H). apply in_seq in H. lia.
  - intro H. exists (Z.to_nat (k + Z.of_nat r)). split; [lia|]. apply in_seq; lia.
Qed.
Lemma NoDup_window r : NoDup (window r).
Proof.
  unfold window. apply FinFun.Injective_map_NoDup; [|apply seq_NoDup]. intros x y; lia.
Qed.
Lemma spread_at sigma i m : 0 < sigma ->
  rsum (map (fun k => kernel sigma k * (if (i + k =? m)%Z then 1 else 0)) (window (kernel_radius sigma))) = spread sigma (m - i).
Proof.
  intro H. destruct (reach_radius sigma H) as [Hr H0].
  transitivity (rsum (map (fun k => if (k =? m - i)%Z then spread sigma k else 0) (window (kernel_radius sigma)))).
  - apply rsum_map_ext. intros k Hk. rewrite (kernel_spread sigma k H Hk).
    destruct (Z.eqb_spec (i + k) m), (Z.eqb_spec k (m - i)); try lia; lra.
  - destruct (Z_le_gt_dec (Z.abs (m - i)) (reach sigma)) as [L | L].
    + apply rsum_single; [apply NoDup_window|]. apply In_window. lia.
    + unfold spread at 2. destruct (Z.leb_spec (Z.abs (m - i)) (reach sigma)); [lia|].
      assert (E : forall k, In k (window (kernel_radius sigma)) -> (if (k =? m - i)%Z then spread sigma k else 0) = 0).
      { intros k Hk. apply In_window in Hk. destruct (Z.eqb_spec k (m - i)); [lia|reflexivity]. }
      rewrite (rsum_map_ext _ (fun _ => 0) _ E). apply rsum_zeros.
Qed.

(** points of light (their strengths and places) along a line of n pixels *)
Lemma blurred_line {A} sigma n (l : list A) (w : A -> R) (at_ : A -> Z) (line : nat -> option R) i :
  0 < sigma -> (forall a, In a l -> w a <> 0 -> (0 <= at_ a < Z.of_nat n)%Z) ->
  (forall m, (m < n)%nat -> line m = Some (rsum (map (fun a => if (at_ a =? Z.of_nat m)%Z then w a else 0) l))) ->
  gaussian_line constant_mode sigma n line i = Some (rsum (map (fun a => w a * spread sigma (at_ a - Z.of_nat i)) l)).
Proof.
  intros Hs Hat Hline. unfold gaussian_line.
  rewrite (weighted_sum_numbers (kernel sigma) (fun k => rsum (map (fun a => w a * (if (Z.of_nat i + k =? at_ a)%Z then 1 else 0)) l))).
  - f_equal.
    transitivity (rsum (map (fun k => rsum (map (fun a => w a * (kernel sigma k * (if (Z.of_nat i + k =? at_ a)%Z then 1 else 0))) l)) (window (kernel_radius sigma)))).
    + apply rsum_map_ext. intros k _. rewrite <- rsum_scale. apply rsum_map_ext. intros; ring.
    + rewrite rsum_swap. apply rsum_map_ext. intros a _. rewrite rsum_scale, spread_at by assumption. reflexivity.
  - intros k _. unfold constant_mode.
    destruct (Z.leb_spec 0 (Z.of_nat i + k)) as [L1 | L1], (Z.ltb_spec (Z.of_nat i + k) (Z.of_nat n)) as [L2 | L2]; cbn [andb].
    + rewrite Hline by lia. f_equal. apply rsum_map_ext. intros a Ha. rewrite Z2Nat.id by assumption.
      destruct (Z.eqb_spec (at_ a) (Z.of_nat i + k)), (Z.eqb_spec (Z.of_nat i + k) (at_ a)); try lia; lra.
    + f_equal. symmetry. rewrite (rsum_map_ext _ (fun _ => 0)); [apply rsum_zeros|].
      intros a Ha. destruct (Req_EM_T (w a) 0) as [-> | Hw]; [lra|]. apply (Hat a Ha) in Hw.
      destruct (Z.eqb_spec (Z.of_nat i + k) (at_ a)); [lia|lra].
    + f_equal. symmetry. rewrite (rsum_map_ext _ (fun _ => 0)); [apply rsum_zeros|].
      intros a Ha. destruct (Req_EM_T (w a) 0) as [-> | Hw]; [lra|]. apply (Hat a Ha) in Hw.
      destruct (Z.eqb_spec (Z.of_nat i + k) (at_ a)); [lia|lra].
    + lia.
Qed.

(** ** Scaling *)
Lemma all_numbers_some l : all_numbers (map Some l) = Some l.
Proof. induction l as [|x l IH]; cbn; [reflexivity|]. rewrite IH; reflexivity. Qed.
Lemma all_numbers_spec l : (exists xs, l = map Some xs /\ all_numbers l = Some xs) \/ (In None l /\ all_numbers l = None).
Proof.
  induction l as [|[x|] l IH]; cbn.
  - left; exists []; auto.
  - destruct IH as [(xs & -> & E) | [H E]]; rewrite E; [left; exists (x :: xs); auto|right; auto].
  - right; auto.
Qed.
Lemma pixels_ext {A} (r r' : raster A) : rs_height r = rs_height r' -> rs_width r = rs_width r' ->
  (forall i j, (i < rs_height r)%nat -> (j < rs_width r)%nat -> rs_pixel r i j = rs_pixel r' i j) -> pixels r = pixels r'.
Proof.
  intros Hh Hw H. unfold pixels. rewrite <- Hh, <- Hw.
  assert (E : forall l, (forall i, In i l -> (i < rs_height r)%nat) ->
    flat_map (fun i => map (rs_pixel r i) (seq 0 (rs_width r))) l = flat_map (fun i => map (rs_pixel r' i) (seq 0 (rs_width r))) l).
  { induction l as [|i l IH]; intro Hl; cbn; [reflexivity|]. f_equal.
    - apply map_ext_in. intros j Hj. apply in_seq in Hj. apply H; [apply Hl; left; reflexivity|lia].
    - apply IH. intros; apply Hl; right; assumption. }
  apply E. intros i Hi. apply in_seq in Hi. lia.
Qed.
Lemma pixels_map {A B} (f : A -> B) (r : raster A) : pixels (raster_map f r) = map f (pixels r).
Proof.
  unfold pixels, raster_map; cbn. induction (seq 0 (rs_height r)) as [|i l IH]; cbn; [reflexivity|].
  rewrite map_app, IH, map_map. reflexivity.
Qed.
Lemma scaled (r : frame) v h w : (0 < h)%nat -> (0 < w)%nat -> rs_height r = h -> rs_width r = w ->
  (forall i j, (i < h)%nat -> (j < w)%nat -> rs_pixel r i j = Some (v i j) /\ 0 <= v i j) ->
  shows_scaled v h w (divide_by_max r).
Proof.
  intros Hn Hn' Hh Hw Hv. unfold shows_scaled, divide_by_max; cbn. split; [assumption|]; split; [assumption|].
  set (rv := mkraster h w v).
  assert (Hp : pixels r = map Some (pixels rv)).
  { rewrite <- pixels_map. apply pixels_ext; cbn; auto. intros i j; rewrite Hh, Hw; intros; apply Hv; assumption. }
  unfold np_max. rewrite Hp, all_numbers_some; cbn [option_map].
  assert (Hne : pixels rv <> []).
  { intro E. assert (In (v 0%nat 0%nat) (pixels rv)) by (apply In_pixels; exists 0%nat, 0%nat; cbn; auto).
    rewrite E in H; destruct H. }
  destruct (maximum_spec _ Hne) as [Hin Hmax].
  apply In_pixels in Hin. destruct Hin as (i0 & j0 & Hi0 & Hj0 & E0). cbn [rv rs_height rs_width rs_pixel] in Hi0, Hj0, E0. rewrite E0 in Hmax.
  assert (Hle : forall i j, (i < h)%nat -> (j < w)%nat -> v i j <= v i0 j0).
  { intros i j Hi Hj. apply Hmax. apply In_pixels; exists i, j; cbn; auto. }
  destruct (Reqb (maximum (pixels rv)) 0) eqn:E.
  - apply Reqb_true in E. left. intros i j Hi Hj. destruct (Hv i j Hi Hj) as [Hs H0]. rewrite Hs.
    specialize (Hle i j Hi Hj). split; [lra|reflexivity].
  - apply Reqb_false in E. right. exists i0, j0. destruct (Hv i0 j0 Hi0 Hj0) as [_ H0].
    split; [assumption|]; split; [assumption|]; split; [rewrite E0 in E; lra|].
    intros i j Hi Hj. destruct (Hv i j Hi Hj) as [Hs H1]. rewrite Hs, E0. split; [split; auto|reflexivity].
Qed.

Lemma spread_nonneg sigma d : 0 <= spread sigma d.
Proof.
  unfold spread. destruct (_ <=? _)%Z; [|lra].
  assert (H : 0 <= rsum (map (fun k => gauss sigma (Z.of_nat k - reach sigma)) (seq 0 (Z.to_nat (2 * reach sigma + 1))))).
  { apply rsum_nonneg. intros x Hx. apply in_map_iff in Hx. destruct Hx as (k & <- & _). apply Rlt_le, exp_pos. }
  pose proof (exp_pos (- (IZR d * IZR d) / (2 * (sigma * sigma)))). fold (gauss sigma d) in H0.
  destruct (Rle_lt_or_eq_dec _ _ H) as [L | <-].
  - apply Rlt_le, Rdiv_lt_0_compat; assumption.
  - unfold Rdiv; rewrite Rinv_0; lra.
Qed.
Lemma light_nonneg e sv sh b n m atoms i j : 0 <= light e sv sh b n m atoms i j.
Proof.
  unfold light. apply rsum_nonneg. intros x Hx. apply in_map_iff in Hx. destruct Hx as (a & <- & _).
  destruct (in_margin _ _); [|lra].
  pose proof (exp_pos (e * ln (IZR (snd a)))). fold (Rpower (IZR (snd a)) e) in H.
  apply Rmult_le_pos; [apply Rmult_le_pos; [lra|]|]; apply spread_nonneg.
Qed.

(** The clean image is the superposition of the atoms, scaled to a maximum of
    one.  It is NaN in all pixels if no light falls into it.  The
    vertical deviation is derived from the width of the view and the horizontal
    one from its height. *)
Theorem clean_image : forall (g : grid) (f : fov) (e : R) (n : nat) (b : R),
  length (positions g) = length (numbers g) -> Forall (fun z => 0 < z)%Z (numbers g) ->
  (0 < n)%nat -> 0 <= b -> 0 < width f < 10 ^ 14 -> 0 < height f < 10 ^ 14 ->
  exists image, generate_clean_image g f e n b = Ok image /\
    shows_scaled (light e (INR n / (215 / 100 * width f)) (INR n / (215 / 100 * height f))
                    b n (Z.to_nat (Zfloor (b * INR n))) (atoms_of g)) n n image.
Proof.
  intros g f e n b Hl Hz Hn Hb Hw Hh.
  assert (Hn' : 1 <= INR n) by (apply (le_INR 1); lia).
  unfold generate_clean_image.
  assert (Ht : trunc (b * INR n) = Zfloor (b * INR n)) by (apply Ztrunc_floor; nra).
  rewrite Ht. set (m := Z.to_nat (Zfloor (b * INR n))).
  destruct (Nat.eqb_spec n 0); [lia|].
  destruct (Reqb (width f) 0) eqn:Ew; [apply Reqb_true in Ew; lra|].
  destruct (Reqb (height f) 0) eqn:Eh; [apply Reqb_true in Eh; lra|]. cbn [orb].
  set (sv := INR n / (215 / 100 * width f)). set (sh := INR n / (215 / 100 * height f)).
  assert (Hbig : forall x, 0 < x < 10 ^ 14 -> 0 < INR n / (215 / 100 * x) /\ negligible (INR n / (215 / 100 * x)) = false).
  { intros x Hx.
    assert (Hlo : 1 / 10 ^ 15 < INR n / (215 / 100 * x)).
    { apply Rmult_lt_reg_r with (215 / 100 * x); [lra|].
      replace (INR n / (215 / 100 * x) * (215 / 100 * x)) with (INR n) by (field; lra). lra. }
    split; [lra|]. unfold negligible, Rleb. destruct (Rle_dec _ _); [lra|reflexivity]. }
  destruct (Hbig _ Hw) as [Hsv Nv]. destruct (Hbig _ Hh) as [Hsh Nh]. fold sv in Hsv, Nv. fold sh in Hsh, Nh.
  eexists; split; [reflexivity|].
  set (N := (n + 2 * m)%nat).
  unfold gaussian_filter. rewrite Nv, Nh.
  apply scaled; [assumption|assumption| | |].
  - cbn. lia.
  - cbn. lia.
  - intros i j Hi Hj. split; [|apply light_nonneg]. cbn [slice rs_pixel raster_map flipud transpose rs_height rs_width intensity_image].
    set (row := fun a : pt * Z => (Z.of_nat N - 1 - pixel_along b N (py (fst a)))%Z).
    set (col := fun a : pt * Z => pixel_along b N (px (fst a))).
    set (str := fun a : pt * Z => if in_margin b (fst a) then Rpower (IZR (snd a)) e else 0).
    assert (HN : (0 < N)%nat) by (unfold N; lia).
    assert (Hin : forall a, str a <> 0 -> (0 <= row a < Z.of_nat N /\ 0 <= col a < Z.of_nat N)%Z).
    { intros a Ha. unfold str in Ha. destruct (in_margin b (fst a)) eqn:E; [|contradiction].
      apply in_margin_spec in E. destruct E as [Ex Ey].
      pose proof (pixel_along_range b N _ Hb HN Ex). pose proof (pixel_along_range b N _ Hb HN Ey). unfold row, col; lia. }
    rewrite (blurred_line sh N (atoms_of g) (fun a => str a * spread sv (row a - Z.of_nat (m + i))) col).
    + f_equal. unfold light. apply rsum_map_ext. intros a _. unfold str. fold N.
      destruct (in_margin b (fst a)); [|ring]. unfold row, col.
      replace (Z.of_nat (m + i)) with (Z.of_nat i + Z.of_nat m)%Z by lia.
      replace (Z.of_nat (m + j)) with (Z.of_nat j + Z.of_nat m)%Z by lia. reflexivity.
    + assumption.
    + intros a _ Ha. apply Hin. intro E; apply Ha; rewrite E; ring.
    + intros c Hc.
      rewrite (blurred_line sv N (atoms_of g) (fun a => if (col a =? Z.of_nat c)%Z then str a else 0) row).
      * f_equal. apply rsum_map_ext. intros a _. destruct (_ =? _)%Z; ring.
      * assumption.
      * intros a _ Ha. apply Hin. intro E; apply Ha; rewrite E; destruct (_ =? _)%Z; reflexivity.
      * intros k Hk. f_equal.
        change (rs_pixel (intensity_image g e N (- b) (1 + b)) c (N - 1 - k) = rsum (map (fun a : pt * Z =>
          if (row a =? Z.of_nat k)%Z then if (col a =? Z.of_nat c)%Z then str a else 0 else 0) (atoms_of g))).
        rewrite intensity_pixel by (try assumption; lia).
        apply rsum_map_ext. intros a _. unfold str, row, col.
        destruct (in_margin b (fst a)); cbn [andb]; [|repeat match goal with |- context [(?x =? ?y)%Z] => destruct (x =? y)%Z end; reflexivity].
        destruct (pixel_along b N (px (fst a)) =? Z.of_nat c)%Z; cbn [andb]; [|repeat match goal with |- context [(?x =? ?y)%Z] => destruct (x =? y)%Z end; reflexivity].
        destruct (Z.eqb_spec (pixel_along b N (py (fst a))) (Z.of_nat (N - 1 - k))),
          (Z.eqb_spec (Z.of_nat N - 1 - pixel_along b N (py (fst a))) (Z.of_nat k)); try lia; reflexivity.
Qed.
Print Assumptions clean_image.

(** Hence, with a margin of whole pixels, an atom is shown where it is. *)
Theorem margin_pixels : forall (b : R) (n m : nat) (x : R),
  0 <= b -> (0 < n)%nat -> b * INR n = INR m -> 0 <= x < 1 ->
  Z.to_nat (Zfloor (b * INR n)) = m /\
  let q := (pixel_along b (n + 2 * m) x - Z.of_nat m)%Z in
  (0 <= q < Z.of_nat n)%Z /\ IZR q / INR n <= x < (IZR q + 1) / INR n.
Proof.
  intros b n m x Hb Hn Hm Hx.
  assert (Hn' : 0 < INR n) by (apply lt_0_INR; lia).
  split.
  - rewrite Hm, INR_IZR_INZ, Zfloor_IZR. lia.
  - cbv zeta. unfold pixel_along. destruct (Req_EM_T x (1 + b)); [lra|].
    replace ((x + b) / (1 + 2 * b) * INR (n + 2 * m)) with (x * INR n + IZR (Z.of_nat m)).
    2: { rewrite <- INR_IZR_INZ, plus_INR, mult_INR, <- Hm. cbn [INR]. field; lra. }
    assert (E : Zfloor (x * INR n + IZR (Z.of_nat m)) = (Zfloor (x * INR n) + Z.of_nat m)%Z).
    { apply Zfloor_imp. rewrite !plus_IZR. pose proof (Zfloor_lb (x * INR n)). pose proof (Zfloor_ub (x * INR n)). lra. }
    rewrite E. replace (Zfloor (x * INR n) + Z.of_nat m - Z.of_nat m)%Z with (Zfloor (x * INR n)) by lia.
    pose proof (Zfloor_lb (x * INR n)). pose proof (Zfloor_ub (x * INR n)).
    split; [split|split].
    + apply Zfloor_lub. nra.
    + apply lt_IZR. rewrite <- INR_IZR_INZ. nra.
    + apply Rmult_le_reg_r with (INR n); [lra|]. unfold Rdiv. rewrite Rmult_assoc, Rinv_l by lra. lra.
    + apply Rmult_lt_reg_r with (INR n); [lra|]. unfold Rdiv. rewrite Rmult_assoc, Rinv_l by lra. lra.
Qed.
Print Assumptions margin_pixels.

(** Calls that fail. *)
Theorem clean_image_raises : forall (g : grid) (f : fov) (e : R) (n : nat) (b : R),
  (n = 0%nat -> generate_clean_image g f e n b = Raise ValueError) /\
  ((0 < n)%nat -> width f = 0 \/ height f = 0 -> generate_clean_image g f e n b = Raise ZeroDivisionError).
Proof.
  intros; split.
  - intros ->; reflexivity.
  - intros Hn H. unfold generate_clean_image. destruct (Nat.eqb_spec n 0); [lia|].
    destruct H as [-> | ->]; (replace (Reqb 0 0) with true by (symmetry; apply Reqb_true; reflexivity));
      rewrite ?orb_true_r; reflexivity.
Qed.
Print Assumptions clean_image_raises.

Lemma spread_self sigma : 0 < sigma -> 0 < spread sigma 0.
Proof.
  intro H. destruct (reach_radius sigma H) as [_ H0]. unfold spread. cbn [Z.abs].
  destruct (Z.leb_spec 0 (reach sigma)); [|lia].
  apply Rdiv_lt_0_compat; [apply exp_pos|].
  replace (Z.to_nat (2 * reach sigma + 1)) with (S (Z.to_nat (2 * reach sigma))) by lia.
  cbn [seq map]. rewrite rsum_cons. apply Rplus_lt_le_0_compat; [apply exp_pos|].
  apply rsum_nonneg. intros x Hx. apply in_map_iff in Hx. destruct Hx as (k & <- & _). apply Rlt_le, exp_pos.
Qed.
Lemma rsum_pos l x : (forall y, In y l -> 0 <= y) -> In x l -> 0 < x -> 0 < rsum l.
Proof. intros H Hi Hx. pose proof (rsum_In_le l x H Hi). lra. Qed.

(** Whether there is an image at all: without an atom in sight it is NaN in all
    pixels; with one it is not. *)
Theorem clean_image_nan : forall (g : grid) (f : fov) (e : R) (n : nat),
  length (positions g) = length (numbers g) -> Forall (fun z => 0 < z)%Z (numbers g) ->
  (0 < n)%nat -> 0 < width f < 10 ^ 14 -> 0 < height f < 10 ^ 14 ->
  exists image, generate_clean_image g f e n 0 = Ok image /\ rs_height image = n /\ rs_width image = n /\
    ((forall p, In p (positions g) -> ~ (0 <= px p <= 1 /\ 0 <= py p <= 1)) ->
       forall i j, (i < n)%nat -> (j < n)%nat -> rs_pixel image i j = None) /\
    ((exists p, In p (positions g) /\ 0 <= px p <= 1 /\ 0 <= py p <= 1) ->
       (forall i j, (i < n)%nat -> (j < n)%nat -> exists x, rs_pixel image i j = Some x /\ 0 <= x <= 1) /\
       exists i j, (i < n)%nat /\ (j < n)%nat /\ rs_pixel image i j = Some 1).
Proof.
  intros g f e n Hl Hz Hn Hw Hh.
  destruct (clean_image g f e n 0 Hl Hz Hn ltac:(lra) Hw Hh) as (image & Hi & Hs).
  exists image; split; [assumption|].
  rewrite Rmult_0_l, Zfloor_IZR in Hs. change (Z.to_nat 0) with 0%nat in Hs.
  destruct Hs as (Hhe & Hwi & Hs). split; [assumption|]; split; [assumption|].
  assert (Hn' : 0 < INR n) by (apply lt_0_INR; lia).
  set (sv := INR n / (215 / 100 * width f)) in *. set (sh := INR n / (215 / 100 * height f)) in *.
  assert (Hsv : 0 < sv) by (apply Rdiv_lt_0_compat; lra).
  assert (Hsh : 0 < sh) by (apply Rdiv_lt_0_compat; lra).
  split.
  - intros Hno i j Hi' Hj'. destruct Hs as [Hs | (i0 & j0 & Hi0 & Hj0 & Hpos & _)].
    + apply Hs; assumption.
    + exfalso. revert Hpos. unfold light. rewrite (rsum_map_ext _ (fun _ => 0)), rsum_zeros; [lra|].
      intros [p z] Hin. cbn [fst]. destruct (in_margin 0 p) eqn:E; [|reflexivity].
      exfalso. apply in_margin_spec in E. apply in_combine_l in Hin. apply (Hno p Hin). lra.
  - intros (p & Hp & Hx & Hy).
    destruct (In_nth_error _ _ Hp) as [k Hk].
    destruct (nth_error (numbers g) k) as [z|] eqn:Ez.
    2: { apply nth_error_None in Ez. rewrite <- Hl in Ez. apply nth_error_None in Ez. congruence. }
    assert (Hin : In (p, z) (atoms_of g)).
    { unfold atoms_of; clear - Hk Ez. revert Hk Ez; generalize (numbers g), (positions g).
      induction k as [|k IH]; intros [|y ys] [|q qs]; cbn; intros; try discriminate; [left; congruence|right; auto]. }
    pose proof (pixel_along_range 0 n (px p) ltac:(lra) Hn ltac:(lra)) as Rx.
    pose proof (pixel_along_range 0 n (py p) ltac:(lra) Hn ltac:(lra)) as Ry.
    set (c := Z.to_nat (pixel_along 0 n (px p))). set (r := Z.to_nat (Z.of_nat n - 1 - pixel_along 0 n (py p))).
    assert (Hpos : 0 < light e sv sh 0 n 0 (atoms_of g) r c).
    { apply rsum_pos with (Rpower (IZR z) e * spread sv 0 * spread sh 0).
      - intros y Hy'. apply in_map_iff in Hy'. destruct Hy' as (a & <- & _). destruct (in_margin _ _); [|lra].
        pose proof (exp_pos (e * ln (IZR (snd a)))). fold (Rpower (IZR (snd a)) e) in H.
        apply Rmult_le_pos; [apply Rmult_le_pos; [lra|]|]; apply spread_nonneg.
      - apply in_map_iff. exists (p, z). split; [|assumption]. cbn [fst snd].
        replace (in_margin 0 p) with true by (symmetry; apply in_margin_spec; lra).
        replace (n + 2 * 0)%nat with n by lia.
        f_equal; [f_equal|]; f_equal; unfold r, c; lia.
      - apply Rmult_lt_0_compat; [apply Rmult_lt_0_compat; [apply exp_pos|]|]; apply spread_self; assumption. }
    assert (Hr : (r < n)%nat) by (unfold r; lia). assert (Hc : (c < n)%nat) by (unfold c; lia).
    destruct Hs as [Hs | (i0 & j0 & Hi0 & Hj0 & Hp0 & Hs)].
    + exfalso. destruct (Hs r c Hr Hc) as [E _]. lra.
    + split.
      * intros i j Hi' Hj'. destruct (Hs i j Hi' Hj') as [[B1 B2] ->]. eexists; split; [reflexivity|]. split.
        -- apply Rmult_le_pos; [assumption|]. apply Rlt_le, Rinv_0_lt_compat; assumption.
        -- apply Rmult_le_reg_r with (light e sv sh 0 n 0 (atoms_of g) i0 j0); [assumption|].
           unfold Rdiv. rewrite Rmult_assoc, Rinv_l by lra. lra.
      * exists i0, j0. split; [assumption|]; split; [assumption|]. destruct (Hs i0 j0 Hi0 Hj0) as [_ ->].
        f_equal. field. lra.
Qed.
Print Assumptions clean_image_nan.

Lemma spread_ratio sigma d : 0 < sigma -> (Z.abs d <= reach sigma)%Z -> spread sigma d = spread sigma 0 * gauss sigma d.
Proof.
  intros H Hd. destruct (reach_radius sigma H) as [_ H0].
  unfold spread. cbn [Z.abs]. destruct (Z.leb_spec (Z.abs d) (reach sigma)); [|lia].
  destruct (Z.leb_spec 0 (reach sigma)); [|lia].
  replace (gauss sigma 0) with 1; [unfold Rdiv; ring|].
  unfold gauss. rewrite Rmult_0_l, Ropp_0. unfold Rdiv. rewrite Rmult_0_l, exp_0. reflexivity.
Qed.
Lemma gauss_le sigma d : 0 < sigma -> gauss sigma d <= 1.
Proof.
  intro H. unfold gauss. rewrite <- exp_0.
  assert (L : - (IZR d * IZR d) / (2 * (sigma * sigma)) <= 0).
  { assert (0 < / (2 * (sigma * sigma))) by (apply Rinv_0_lt_compat; nra). unfold Rdiv. nra. }
  destruct (Rle_lt_or_eq_dec _ _ L) as [L' | ->]; [apply Rlt_le, exp_increasing; assumption|lra].
Qed.
Lemma spread_le sigma d : 0 < sigma -> spread sigma d <= spread sigma 0.
Proof.
  intro H. destruct (Z_le_gt_dec (Z.abs d) (reach sigma)) as [L | L].
  - rewrite spread_ratio by assumption. pose proof (spread_self sigma H). pose proof (gauss_le sigma d H). nra.
  - unfold spread at 1. destruct (Z.leb_spec (Z.abs d) (reach sigma)); [lia|]. apply Rlt_le, spread_self; assumption.
Qed.

Lemma single_atom p z f e n i j :
  (0 < z)%Z -> (0 < n)%nat -> 0 < width f < 10 ^ 14 -> 0 < height f < 10 ^ 14 ->
  0 <= px p <= 1 -> 0 <= py p <= 1 -> (i < n)%nat -> (j < n)%nat ->
  let sv := INR n / (215 / 100 * width f) in
  let sh := INR n / (215 / 100 * height f) in
  let down := (Z.of_nat n - 1 - pixel_along 0 n (py p) - Z.of_nat i)%Z in
  let right := (pixel_along 0 n (px p) - Z.of_nat j)%Z in
  exists image, generate_clean_image (mkgrid [p] [z]) f e n 0 = Ok image /\
    rs_pixel image i j = Some (spread sv down / spread sv 0 * (spread sh right / spread sh 0)).
Proof.
  intros Hz Hn Hw Hh Hx Hy Hi Hj sv sh down right.
  destruct (clean_image (mkgrid [p] [z]) f e n 0 eq_refl ltac:(repeat constructor; assumption) Hn ltac:(lra) Hw Hh)
    as (image & Hg & Hs).
  exists image; split; [assumption|].
  assert (Hn' : 0 < INR n) by (apply lt_0_INR; lia).
  assert (Hsv : 0 < sv) by (apply Rdiv_lt_0_compat; lra).
  assert (Hsh : 0 < sh) by (apply Rdiv_lt_0_compat; lra).
  pose proof (spread_self sv Hsv). pose proof (spread_self sh Hsh).
  pose proof (exp_pos (e * ln (IZR z))) as He. fold (Rpower (IZR z) e) in He.
  rewrite Rmult_0_l, Zfloor_IZR in Hs. change (Z.to_nat 0) with 0%nat in Hs. fold sv sh in Hs.
  set (L := fun a b => Rpower (IZR z) e * spread sv (Z.of_nat n - 1 - pixel_along 0 n (py p) - Z.of_nat a) * spread sh (pixel_along 0 n (px p) - Z.of_nat b)).
  assert (HL : forall a b, light e sv sh 0 n 0 (atoms_of (mkgrid [p] [z])) a b = L a b).
  { intros a b. unfold light, atoms_of. cbn [positions numbers combine map fst snd]. rewrite rsum_cons.
    change (rsum []) with 0. rewrite Rplus_0_r.
    replace (in_margin 0 p) with true by (symmetry; apply in_margin_spec; lra).
    replace (n + 2 * 0)%nat with n by lia. unfold L. f_equal; [f_equal|]; f_equal; lia. }
  pose proof (pixel_along_range 0 n (px p) ltac:(lra) Hn ltac:(lra)) as Rx.
  pose proof (pixel_along_range 0 n (py p) ltac:(lra) Hn ltac:(lra)) as Ry.
  set (c := Z.to_nat (pixel_along 0 n (px p))). set (r := Z.to_nat (Z.of_nat n - 1 - pixel_along 0 n (py p))).
  assert (Hr : (r < n)%nat) by (unfold r; lia). assert (Hc : (c < n)%nat) by (unfold c; lia).
  assert (Lself : L r c = Rpower (IZR z) e * spread sv 0 * spread sh 0).
  { unfold L. f_equal; [f_equal|]; f_equal; unfold r, c; lia. }
  assert (Lle : forall a b, L a b <= Rpower (IZR z) e * spread sv 0 * spread sh 0).
  { intros a b. unfold L. apply Rmult_le_compat.
    - apply Rmult_le_pos; [lra|apply spread_nonneg].
    - apply spread_nonneg.
    - apply Rmult_le_compat_l; [lra|apply spread_le; assumption].
    - apply spread_le; assumption. }
  assert (Lpos : 0 < Rpower (IZR z) e * spread sv 0 * spread sh 0).
  { apply Rmult_lt_0_compat; [apply Rmult_lt_0_compat|]; assumption. }
  destruct Hs as (_ & _ & [Hs | (i0 & j0 & Hi0 & Hj0 & Hp0 & Hs)]).
  - exfalso. destruct (Hs r c Hr Hc) as [E _]. rewrite HL in E. lra.
  - assert (E0 : L i0 j0 = Rpower (IZR z) e * spread sv 0 * spread sh 0).
    { destruct (Hs r c Hr Hc) as [[_ B] _]. rewrite !HL in B. pose proof (Lle i0 j0). lra. }
    destruct (Hs i j Hi Hj) as [_ ->]. rewrite !HL, E0. f_equal. unfold L. fold down right. field. lra.
Qed.

(** A single atom in a square view is a round blob: the brightness of a pixel is
    a Gaussian of its distance to the pixel of the atom on the material, whose
    deviation is 1 / 2.15 Angstroms whatever the size of the image or of the
    view; it ends about four deviations away along each axis. *)
Theorem single_atom_blob : forall (p : pt) (z : Z) (f : fov) (side e : R) (n i j i0 j0 : nat),
  (0 < z)%Z -> square_view f side -> side < 10 ^ 14 ->
  (i < n)%nat -> (j < n)%nat -> (i0 < n)%nat -> (j0 < n)%nat ->
  INR j0 / INR n <= px p < (INR j0 + 1) / INR n -> 1 - (INR i0 + 1) / INR n <= py p < 1 - INR i0 / INR n ->
  exists image, generate_clean_image (mkgrid [p] [z]) f e n 0 = Ok image /\
    let d := pdist (pixel_centre f n n i j) (pixel_centre f n n i0 j0) in
    let cut := Zfloor (4 * (INR n / (215 / 100 * side)) + 1 / 2) in
    rs_pixel image i j =
      Some (if ((Z.abs (Z.of_nat i - Z.of_nat i0) <=? cut) && (Z.abs (Z.of_nat j - Z.of_nat j0) <=? cut))%Z
            then exp (- (d * d) / (2 * ((100 / 215) * (100 / 215)))) else 0).
Proof.
  intros p z f side e n i j i0 j0 Hz (Hs & Hw & Hh) Hs' Hi Hj Hi0 Hj0 Hpx Hpy.
  assert (Hn' : 0 < INR n) by (apply lt_0_INR; lia).
  assert (Hix : 0 < / INR n) by (apply Rinv_0_lt_compat; assumption).
  assert (HI0 : 0 <= INR i0 /\ INR i0 + 1 <= INR n) by (rewrite <- S_INR; split; [apply pos_INR|apply le_INR; lia]).
  assert (HJ0 : 0 <= INR j0 /\ INR j0 + 1 <= INR n) by (rewrite <- S_INR; split; [apply pos_INR|apply le_INR; lia]).
  assert (Hx : INR j0 <= px p * INR n < INR j0 + 1).
  { assert (E : INR j0 = INR j0 / INR n * INR n) by (field; lra).
    assert (E' : INR j0 + 1 = (INR j0 + 1) / INR n * INR n) by (field; lra).
    split; [rewrite E; apply Rmult_le_compat_r; lra|rewrite E'; apply Rmult_lt_compat_r; lra]. }
  assert (Hy : INR n - 1 - INR i0 <= py p * INR n < INR n - INR i0).
  { assert (E : INR n - 1 - INR i0 = (1 - (INR i0 + 1) / INR n) * INR n) by (field; lra).
    assert (E' : INR n - INR i0 = (1 - INR i0 / INR n) * INR n) by (field; lra).
    split; [rewrite E; apply Rmult_le_compat_r; lra|rewrite E'; apply Rmult_lt_compat_r; lra]. }
  assert (Px : pixel_along 0 n (px p) = Z.of_nat j0).
  { unfold pixel_along. destruct (Req_EM_T (px p) (1 + 0)) as [E | _]; [exfalso; nra|].
    replace ((px p + 0) / (1 + 2 * 0) * INR n) with (px p * INR n) by (field; lra).
    apply Zfloor_imp. rewrite plus_IZR, <- INR_IZR_INZ. lra. }
  assert (Py : pixel_along 0 n (py p) = (Z.of_nat n - 1 - Z.of_nat i0)%Z).
  { unfold pixel_along. destruct (Req_EM_T (py p) (1 + 0)) as [E | _]; [exfalso; nra|].
    replace ((py p + 0) / (1 + 2 * 0) * INR n) with (py p * INR n) by (field; lra).
    apply Zfloor_imp. rewrite plus_IZR, !minus_IZR, <- !INR_IZR_INZ. lra. }
  assert (Ew : width f = side) by (exact Hw). assert (Eh : height f = side) by (exact Hh).
  destruct (single_atom p z f e n i j Hz ltac:(lia) ltac:(lra) ltac:(lra)) as (image & Hg & Hp);
    [split; nra|split; nra|assumption|assumption|].
  exists image; split; [assumption|]. cbv zeta. rewrite Hp. f_equal.
  rewrite Px, Py, Ew, Eh.
  set (s := INR n / (215 / 100 * side)).
  assert (Hsp : 0 < s) by (apply Rdiv_lt_0_compat; lra).
  pose proof (spread_self s Hsp) as S0.
  fold (reach s).
  replace (Z.of_nat n - 1 - (Z.of_nat n - 1 - Z.of_nat i0) - Z.of_nat i)%Z with (Z.of_nat i0 - Z.of_nat i)%Z by lia.
  replace (Z.abs (Z.of_nat i - Z.of_nat i0)) with (Z.abs (Z.of_nat i0 - Z.of_nat i)) by lia.
  replace (Z.abs (Z.of_nat j - Z.of_nat j0)) with (Z.abs (Z.of_nat j0 - Z.of_nat j)) by lia.
  destruct (Z.leb_spec (Z.abs (Z.of_nat i0 - Z.of_nat i)) (reach s)) as [L1 | L1]; cbn [andb].
  2: { unfold spread at 1. destruct (Z.leb_spec (Z.abs (Z.of_nat i0 - Z.of_nat i)) (reach s)); [lia|]. unfold Rdiv; ring. }
  destruct (Z.leb_spec (Z.abs (Z.of_nat j0 - Z.of_nat j)) (reach s)) as [L2 | L2].
  2: { unfold spread at 3. destruct (Z.leb_spec (Z.abs (Z.of_nat j0 - Z.of_nat j)) (reach s)); [lia|]. unfold Rdiv; ring. }
  rewrite !(spread_ratio s (_ - _)) by assumption.
  replace (spread s 0 * gauss s (Z.of_nat i0 - Z.of_nat i) / spread s 0) with (gauss s (Z.of_nat i0 - Z.of_nat i)) by (field; lra).
  replace (spread s 0 * gauss s (Z.of_nat j0 - Z.of_nat j) / spread s 0) with (gauss s (Z.of_nat j0 - Z.of_nat j)) by (field; lra).
  unfold gauss. rewrite <- exp_plus. f_equal.
  unfold pdist, pnorm. rewrite sqrt_sqrt by (unfold psq; nra).
  unfold psq, psub, pixel_centre; cbn [px py]. rewrite Hw, Hh.
  rewrite !minus_IZR, <- !INR_IZR_INZ. unfold s. field. lra.
Qed.
Print Assumptions single_atom_blob.

(** A carbon atom in a view of four by four angstroms: the pixel beside its own
    one, half an angstrom away. *)
Example single_atom_blob_nonvacuous :
  exists image, generate_clean_image (mkgrid [mkpt (9 / 16) (7 / 16)] [6%Z]) (mkfov (mkpt 0 0) (mkpt 4 4)) 1 8 0 = Ok image /\
    rs_pixel image 4 5 = Some (exp (- (1 / 4) / (2 * ((100 / 215) * (100 / 215))))).
Proof.
  destruct (single_atom_blob (mkpt (9 / 16) (7 / 16)) 6 (mkfov (mkpt 0 0) (mkpt 4 4)) 4 1 8 4 5 4 4) as (image & Hg & Hp);
    try lia; try (cbn; lra).
  { unfold square_view, width, height; cbn. lra. }
  exists image. split; [exact Hg|]. cbv zeta in Hp. rewrite Hp. f_equal.
  assert (L : (1 <= Zfloor (4 * (INR 8 / (215 / 100 * 4)) + 1 / 2))%Z) by (apply Zfloor_lub; cbn; lra).
  replace ((_ && _)%bool) with true.
  2:{ symmetry. apply andb_true_iff. split; apply Z.leb_le; revert L; generalize (Zfloor (4 * (INR 8 / (215 / 100 * 4)) + 1 / 2)); intros c L; cbn; lia. }
  do 2 f_equal. f_equal. unfold pdist, pnorm. rewrite sqrt_sqrt.
  - unfold psq, psub, pixel_centre; cbn; lra.
  - unfold psq. apply Rplus_le_le_0_compat; apply Rle_0_sqr.
Qed.

(** In a view that is not square the blob is not round, nor is it an ellipse of
    the proportions of the view: a view of 2 by 1 Angstroms and an image of 8 by
    8 pixels, in which two pixels, one to the right of the atom and one two
    rows below, are equally far from it on the material, but not equally
    bright. *)
Theorem round_blob_refuted : exists (p : pt) (z : Z) (f : fov) (e : R) (image : frame),
  generate_clean_image (mkgrid [p] [z]) f e 8 0 = Ok image /\
  pdist (pixel_centre f 8 8 4 5) (pixel_centre f 8 8 4 4) = pdist (pixel_centre f 8 8 6 4) (pixel_centre f 8 8 4 4) /\
  rs_pixel image 4 4 = Some 1 /\ rs_pixel image 4 5 <> rs_pixel image 6 4.
Proof.
  exists (mkpt (9 / 16) (7 / 16)), 6%Z, (mkfov (mkpt 0 0) (mkpt 2 1)), 1.
  set (f := mkfov (mkpt 0 0) (mkpt 2 1)). set (p := mkpt (9 / 16) (7 / 16)).
  assert (Hw : width f = 2) by (unfold width; cbn; lra). assert (Hh : height f = 1) by (unfold height; cbn; lra).
  assert (Px : pixel_along 0 8 (px p) = 4%Z).
  { unfold pixel_along; cbn [px p]. destruct (Req_EM_T _ _); [lra|]. apply Zfloor_imp. cbn; lra. }
  assert (Py : pixel_along 0 8 (py p) = 3%Z).
  { unfold pixel_along; cbn [py p]. destruct (Req_EM_T _ _); [lra|]. apply Zfloor_imp. cbn; lra. }
  assert (H : forall i j, (i < 8)%nat -> (j < 8)%nat -> exists image, generate_clean_image (mkgrid [p] [6%Z]) f 1 8 0 = Ok image /\
    rs_pixel image i j = Some (spread (INR 8 / (215 / 100 * 2)) (4 - Z.of_nat i) / spread (INR 8 / (215 / 100 * 2)) 0
      * (spread (INR 8 / (215 / 100 * 1)) (4 - Z.of_nat j) / spread (INR 8 / (215 / 100 * 1)) 0))).
  { intros i j Hi Hj. destruct (single_atom p 6 f 1 8 i j) as (image & Hg & Hp); try assumption; try lia; try (rewrite ?Hw, ?Hh; lra); try (cbn; lra).
    exists image; split; [assumption|]. rewrite Hp, Px, Py, Hw, Hh. cbn [Z.of_nat Z.sub]. reflexivity. }
  replace (INR 8) with 8 in H by (cbn; lra).
  set (sv := 8 / (215 / 100 * 2)) in H. set (sh := 8 / (215 / 100 * 1)) in H.
  assert (Hsv : 0 < sv) by (unfold sv; lra). assert (Hsh : 0 < sh) by (unfold sh; lra).
  pose proof (spread_self sv Hsv). pose proof (spread_self sh Hsh).
  assert (Rv : (2 <= reach sv)%Z) by (apply Zfloor_lub; unfold sv; lra).
  assert (Rh : (2 <= reach sh)%Z) by (apply Zfloor_lub; unfold sh; lra).
  destruct (H 4 4 ltac:(lia) ltac:(lia))%nat as (image & Hg & H44).
  destruct (H 4 5 ltac:(lia) ltac:(lia))%nat as (image' & Hg' & H45). rewrite Hg in Hg'; injection Hg' as <-.
  destruct (H 6 4 ltac:(lia) ltac:(lia))%nat as (image' & Hg' & H64). rewrite Hg in Hg'; injection Hg' as <-.
  exists image. split; [exact Hg|]. split; [|split].
  - unfold pdist, pnorm. f_equal. unfold psq, psub, pixel_centre; cbn; lra.
  - rewrite H44. f_equal. change (4 - Z.of_nat 4)%Z with 0%Z. field. lra.
  - rewrite H45, H64. change (4 - Z.of_nat 4)%Z with 0%Z. change (4 - Z.of_nat 5)%Z with (-1)%Z. change (4 - Z.of_nat 6)%Z with (-2)%Z.
    rewrite (spread_ratio sh (-1)) by (try assumption; cbn [Z.abs]; lia).
    rewrite (spread_ratio sv (-2)) by (try assumption; cbn [Z.abs]; lia).
    intro E. injection E as E.
    replace (spread sv 0 / spread sv 0 * (spread sh 0 * gauss sh (-1) / spread sh 0)) with (gauss sh (-1)) in E by (field; lra).
    replace (spread sv 0 * gauss sv (-2) / spread sv 0 * (spread sh 0 / spread sh 0)) with (gauss sv (-2)) in E by (field; lra).
    unfold gauss in E. apply exp_inv in E. unfold sv, sh in E. lra.
Qed.
Print Assumptions round_blob_refuted.

(** With a margin that is not of whole pixels places are not kept: an image of
    one pixel with a margin of half the view shows an atom that is not in the
    view at all. *)
Theorem margin_refuted : exists (p : pt) (z : Z) (f : fov) (e : R) (image : frame),
  1 < px p /\ generate_clean_image (mkgrid [p] [z]) f e 1 (1 / 2) = Ok image /\
  Z.to_nat (Zfloor (1 / 2 * INR 1)) = 0%nat /\ pixel_along (1 / 2) 1 (px p) = 0%Z /\ rs_pixel image 0 0 = Some 1.
Proof.
  exists (mkpt (5 / 4) (1 / 2)), 6%Z, (mkfov (mkpt 0 0) (mkpt 1 1)), 1.
  set (f := mkfov (mkpt 0 0) (mkpt 1 1)). set (p := mkpt (5 / 4) (1 / 2)).
  destruct (clean_image (mkgrid [p] [6%Z]) f 1 1 (1 / 2) eq_refl ltac:(repeat constructor; lia) ltac:(lia) ltac:(lra))
    as (image & Hg & Hs); [unfold width; cbn; lra|unfold height; cbn; lra|].
  assert (Hm : Z.to_nat (Zfloor (1 / 2 * INR 1)) = 0%nat).
  { replace (Zfloor (1 / 2 * INR 1)) with 0%Z; [reflexivity|]. symmetry; apply Zfloor_imp. cbn; lra. }
  assert (Px : pixel_along (1 / 2) 1 (px p) = 0%Z).
  { unfold pixel_along; cbn [px p]. destruct (Req_EM_T _ _); [lra|]. apply Zfloor_imp. cbn; lra. }
  assert (Py : pixel_along (1 / 2) 1 (py p) = 0%Z).
  { unfold pixel_along; cbn [py p]. destruct (Req_EM_T _ _); [lra|]. apply Zfloor_imp. cbn; lra. }
  exists image. split; [cbn; lra|]. split; [exact Hg|]. split; [exact Hm|]. split; [exact Px|].
  rewrite Hm in Hs. replace (width f) with 1 in Hs by (unfold width; cbn; lra). replace (height f) with 1 in Hs by (unfold height; cbn; lra).
  set (s := INR 1 / (215 / 100 * 1)) in Hs. assert (Hsp : 0 < s) by (unfold s; cbn; lra).
  destruct Hs as (_ & _ & [Hs | (i0 & j0 & Hi0 & Hj0 & Hp0 & Hs)]).
  - exfalso. destruct (Hs 0 0 ltac:(lia) ltac:(lia))%nat as [E _]. revert E.
    unfold light, atoms_of; cbn [positions numbers combine map fst snd]. rewrite rsum_cons. change (rsum []) with 0.
    replace (in_margin (1 / 2) p) with true by (symmetry; apply in_margin_spec; cbn; lra).
    change (1 + 2 * 0)%nat with 1%nat. rewrite Px, Py.
    change (Z.of_nat 1 - 1 - 0 - (Z.of_nat 0 + Z.of_nat 0))%Z with 0%Z. change (0 - (Z.of_nat 0 + Z.of_nat 0))%Z with 0%Z.
    pose proof (spread_self s Hsp). pose proof (exp_pos (1 * ln (IZR 6))). fold (Rpower (IZR 6) 1) in H0.
    assert (0 < Rpower (IZR 6) 1 * spread s 0 * spread s 0) by (repeat apply Rmult_lt_0_compat; assumption). lra.
  - replace i0 with 0%nat in * by lia. replace j0 with 0%nat in * by lia.
    destruct (Hs 0 0 ltac:(lia) ltac:(lia))%nat as [_ ->]. f_equal. field. lra.
Qed.
Print Assumptions margin_refuted.
