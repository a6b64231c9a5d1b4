(** The noise of an image and its composition (imaging.py:176-265). *)
From Coq Require Import Reals ZArith List Bool Lia Lra Arith.
From Flocq Require Import Core.Raux.
From Verif Require Import Base.Prelude Base.Rounding Base.Random Model.Constants Model.MicroscopeUtils Model.ImageAligner
  Model.Simulator Model.Imaging Spec.Grids Spec.Views Proofs.ExampleSampler Props.MaskProps Spec.Imaging Proofs.BaseFacts Proofs.ClumpFacts Proofs.LossFacts
  Props.ClumpProps Props.EnsembleProps Props.ImageAlignerProps Props.CleanImageProps.
Import ListNotations.
Open Scope R_scope.

(** ** Arrays of draws *)
Lemma draw_each_drawn {G A B} (draw : A -> G -> B * G) l g :
  drawn (map draw l) g (fst (draw_each draw l g)) (snd (draw_each draw l g)).
Proof.
  revert g; induction l as [|x l IH]; intro g; cbn [draw_each map]; [constructor|].
  destruct (draw x g) as [y g'] eqn:E. specialize (IH g'). destruct (draw_each draw l g') as [ys g''] eqn:E'.
  cbn in *. econstructor; eassumption.
Qed.
Lemma map_repeat {A B} (d : B) (l : list A) : map (fun _ => d) l = repeat d (length l).
Proof. induction l; cbn; congruence. Qed.
Lemma drawn_length {G B} (ds : list (G -> B * G)) g ys g' : drawn ds g ys g' -> length ys = length ds.
Proof. induction 1; cbn; congruence. Qed.
Lemma drawn_Forall {G B} (P : B -> Prop) (ds : list (G -> B * G)) g ys g' :
  drawn ds g ys g' -> (forall d, In d ds -> forall g, P (fst (d g))) -> Forall P ys.
Proof.
  induction 1 as [|d ds g y ys g' g'' E H IH]; intro Hd; constructor.
  - specialize (Hd d (or_introl eq_refl) g). rewrite E in Hd; assumption.
  - apply IH. intros; apply Hd; right; assumption.
Qed.
Lemma draw_array_drawn {G} (draw : G -> R * G) h w g : exists l,
  drawn (repeat draw (h * w)) g l (snd (draw_array draw h w g)) /\
  forall i j, rs_pixel (fst (draw_array draw h w g)) i j = nth (i * w + j) l 0.
Proof.
  unfold draw_array.
  pose proof (draw_each_drawn (fun _ : nat => draw) (seq 0 (h * w)) g) as H.
  rewrite map_repeat, seq_length in H.
  destruct (draw_each _ _ _) as [l g'] eqn:E. cbn in *. exists l. split; [assumption|reflexivity].
Qed.
Lemma nth_Forall (P : R -> Prop) l n : Forall P l -> P 0 -> P (nth n l 0).
Proof.
  intros H H0. destruct (Nat.lt_ge_cases n (length l)) as [L | L].
  - rewrite Forall_forall in H. apply H, nth_In; assumption.
  - rewrite nth_overflow; assumption.
Qed.

(** ** Images with NaN *)
Lemma np_max_nan r : some_nan r -> np_max r = None.
Proof.
  intros (i & j & Hi & Hj & E). unfold np_max.
  destruct (all_numbers_spec (pixels r)) as [(xs & Ex & _) | [_ ->]]; [|reflexivity].
  exfalso. assert (Hin : In None (pixels r)) by (apply In_pixels; exists i, j; auto).
  rewrite Ex in Hin. apply in_map_iff in Hin. destruct Hin as (x & Hx & _); discriminate.
Qed.
Lemma divide_nan r : some_nan r -> all_nan (rs_height r) (rs_width r) (divide_by_max r).
Proof.
  intro H. unfold divide_by_max. rewrite (np_max_nan r H). split; [reflexivity|]; split; [reflexivity|].
  intros i j _ _. cbn. destruct (rs_pixel r i j); reflexivity.
Qed.
Lemma nan_or_numbers (r : frame) : some_nan r \/ exists x, shows x (rs_height r) (rs_width r) r.
Proof.
  destruct (all_numbers_spec (pixels r)) as [(xs & Ex & _) | [Hin _]].
  - right. exists (fun i j => match rs_pixel r i j with Some v => v | None => 0 end).
    split; [reflexivity|]; split; [reflexivity|]. intros i j Hi Hj.
    assert (Hin : In (rs_pixel r i j) (pixels r)) by (apply In_pixels; exists i, j; auto).
    rewrite Ex in Hin. apply in_map_iff in Hin. destruct Hin as (x & <- & _). reflexivity.
  - left. apply In_pixels in Hin. destruct Hin as (i & j & Hi & Hj & E). exists i, j; auto.
Qed.
Lemma np_min_nonneg x h w r : shows x h w r -> (forall i j, (i < h)%nat -> (j < w)%nat -> 0 <= x i j) -> low_clip r = 0.
Proof.
  intros (Hh & Hw & Hx) H0. unfold low_clip, np_min.
  destruct (all_numbers_spec (pixels r)) as [(xs & Ex & ->) | [_ ->]]; [|reflexivity]. cbn [option_map].
  destruct (Rltb (minimum xs) 0) eqn:E; [|reflexivity]. exfalso. apply Rltb_true in E.
  destruct xs as [|y ys]; [cbn in E; lra|].
  destruct (minimum_spec (y :: ys) ltac:(discriminate)) as [Hin _].
  assert (Hp : In (Some (minimum (y :: ys))) (pixels r)) by (rewrite Ex; apply in_map; assumption).
  apply In_pixels in Hp. destruct Hp as (i & j & Hi & Hj & E'). rewrite Hh in Hi; rewrite Hw in Hj.
  rewrite Hx in E' by assumption. assert (E'' : x i j = minimum (y :: ys)) by congruence. specialize (H0 i j Hi Hj). lra.
Qed.
Lemma np_min_negative x h w r : shows x h w r -> (exists i j, (i < h)%nat /\ (j < w)%nat /\ x i j < 0) -> low_clip r = -1.
Proof.
  intros (Hh & Hw & Hx) (i & j & Hi & Hj & H0). unfold low_clip, np_min.
  destruct (all_numbers_spec (pixels r)) as [(xs & Ex & ->) | [Hin _]]; cbn [option_map].
  - assert (Hp : In (Some (x i j)) (pixels r)).
    { apply In_pixels. exists i, j. rewrite Hh, Hw, Hx; auto. }
    rewrite Ex in Hp. apply in_map_iff in Hp. destruct Hp as (y & E & Hy). injection E as ->.
    destruct (minimum_spec xs) as [_ Hm]; [intros ->; destruct Hy|]. specialize (Hm _ Hy).
    destruct (Rltb (minimum xs) 0) eqn:E; [reflexivity|]. apply Rltb_false in E. lra.
  - exfalso. apply In_pixels in Hin. destruct Hin as (a & b & Ha & Hb & E). rewrite Hh in Ha; rewrite Hw in Hb.
    rewrite Hx in E by assumption. discriminate.
Qed.
Lemma low_clip_nan r : some_nan r -> low_clip r = 0.
Proof.
  intros (i & j & Hi & Hj & E). unfold low_clip, np_min.
  destruct (all_numbers_spec (pixels r)) as [(xs & Ex & _) | [_ ->]]; [|reflexivity].
  exfalso. assert (Hin : In None (pixels r)) by (apply In_pixels; exists i, j; auto).
  rewrite Ex in Hin. apply in_map_iff in Hin. destruct Hin as (x & Hx & _); discriminate.
Qed.
Lemma clip_unit x : 0 <= x <= 1 -> clip x 0 1 = x.
Proof. intro H. unfold clip. rewrite Rmax_left, Rmin_left by lra. reflexivity. Qed.

Section Stages.
Context {G : Type}.
Variable s : sampler G.
Variable poisson : R -> G -> nat * G.
Hypothesis s_ok : sampler_ok s.

(** Jitter moves the pixels of each row cyclically to the right, by a number of
    pixels drawn for the row. *)
Theorem jitter_rolls : forall (r : frame) (rate : R) (g : G), exists rolls g' image,
  apply_jitter poisson r rate g = (image, g') /\ drawn (repeat (poisson rate) (rs_height r)) g rolls g' /\
  rs_height image = rs_height r /\ rs_width image = rs_width r /\
  forall i j, (i < rs_height r)%nat -> (j < rs_width r)%nat ->
    rs_pixel image i ((j + nth i rolls 0) mod rs_width r)%nat = rs_pixel r i j.
Proof.
  intros r rate g. unfold apply_jitter.
  pose proof (draw_each_drawn (fun _ : nat => poisson rate) (seq 0 (rs_height r)) g) as H.
  rewrite map_repeat, seq_length in H.
  destruct (draw_each _ _ _) as [rolls g'] eqn:E. cbn [fst snd] in H.
  exists rolls, g'. eexists. split; [reflexivity|]. split; [assumption|]. cbn. split; [reflexivity|]; split; [reflexivity|].
  intros i j Hi Hj. f_equal. unfold roll_index. set (w := rs_width r) in *. set (k := nth i rolls 0%nat).
  pose proof (Nat.mod_upper_bound k w ltac:(lia)). 
  rewrite Nat.add_mod_idemp_l by lia.
  pose proof (Nat.div_mod k w ltac:(lia)) as D.
  replace (j + k + (w - k mod w))%nat with (j + (k / w + 1) * w)%nat by nia.
  rewrite Nat.mod_add by lia. apply Nat.mod_small; assumption.
Qed.

(** Poisson noise replaces each pixel by a count, at a rate proportional to its
    brightness, and scales the counts to a maximum of one.  If no pixel counts
    anything the image is NaN. *)
Theorem poisson_counts : forall (x : nat -> nat -> R) (h w : nat) (r : frame) (multiplier : R) (g : G),
  (0 < h)%nat -> (0 < w)%nat -> shows x h w r ->
  (forall i j, (i < h)%nat -> (j < w)%nat -> 0 <= x i j * multiplier) ->
  exists counts g' image, apply_poisson_noise poisson r multiplier g = (Ok image, g') /\
    drawn (flat_map (fun i => map (fun j => poisson (x i j * multiplier)) (seq 0 w)) (seq 0 h)) g counts g' /\
    shows_scaled (fun i j => INR (nth (i * w + j) counts 0%nat)) h w image.
Proof.
  intros x h w r k g H0h H0w (Hh & Hw & Hx) Hk. unfold apply_poisson_noise.
  set (rv := mkraster h w (fun i j => x i j * k)).
  assert (Hp : pixels (raster_map (option_map (fun y => y * k)) r) = map Some (pixels rv)).
  { rewrite <- (pixels_map Some). apply pixels_ext; cbn; auto. rewrite Hh, Hw. intros i j Hi Hj. rewrite Hx by assumption. reflexivity. }
  rewrite Hp, all_numbers_some.
  destruct (existsb _ _) eqn:E.
  { exfalso. apply existsb_exists in E. destruct E as (y & Hy & Hlt). apply Rltb_true in Hlt.
    apply In_pixels in Hy. destruct Hy as (i & j & Hi & Hj & ->). cbn in Hi, Hj, Hlt. specialize (Hk i j Hi Hj). lra. }
  pose proof (draw_each_drawn poisson (pixels rv) g) as H.
  destruct (draw_each poisson (pixels rv) g) as [counts g'] eqn:E'. cbn [fst snd] in H.
  exists counts, g'. eexists. split; [reflexivity|]. split.
  - replace (flat_map _ _) with (map poisson (pixels rv)); [assumption|].
    unfold pixels; cbn. clear. induction (seq 0 h) as [|i l IH]; cbn; [reflexivity|]. rewrite map_app, IH, map_map. reflexivity.
  - apply scaled; cbn; auto. intros i j _ _. rewrite Hw. split; [reflexivity|apply pos_INR].
Qed.
(** numpy refuses a NaN and a negative rate, and draws nothing then *)
Theorem poisson_raises : forall (r : frame) (multiplier : R) (g : G),
  some_nan r \/ (exists x, shows x (rs_height r) (rs_width r) r /\
    exists i j, (i < rs_height r)%nat /\ (j < rs_width r)%nat /\ x i j * multiplier < 0) ->
  apply_poisson_noise poisson r multiplier g = (Raise ValueError, g).
Proof.
  intros r k g [(i & j & Hi & Hj & E) | (x & (Hh & Hw & Hx) & i & j & Hi & Hj & Hlt)]; unfold apply_poisson_noise.
  - destruct (all_numbers_spec (pixels (raster_map (option_map (fun y => y * k)) r))) as [(xs & Ex & _) | [_ ->]]; [|reflexivity].
    exfalso. assert (Hin : In None (pixels (raster_map (option_map (fun y => y * k)) r))).
    { apply In_pixels; exists i, j; cbn; rewrite E; auto. }
    rewrite Ex in Hin. apply in_map_iff in Hin. destruct Hin as (y & Hy & _); discriminate.
  - destruct (all_numbers_spec (pixels (raster_map (option_map (fun y => y * k)) r))) as [(xs & Ex & ->) | [_ ->]]; [|reflexivity].
    replace (existsb (fun y => Rltb y 0) xs) with true; [reflexivity|]. symmetry. apply existsb_exists.
    exists (x i j * k). split; [|apply Rltb_true; assumption].
    assert (Hin : In (Some (x i j * k)) (pixels (raster_map (option_map (fun y => y * k)) r))).
    { apply In_pixels; exists i, j; cbn; rewrite Hx by assumption; auto. }
    rewrite Ex in Hin. apply in_map_iff in Hin. destruct Hin as (y & Hy & Hin). congruence.
Qed.

(** Salt and pepper noise leaves a pixel as it is or makes it one or zero. *)
Theorem salt_and_pepper : forall (r : frame) (amount : R) (g : G),
  (forall i j, (i < rs_height r)%nat -> (j < rs_width r)%nat ->
     rs_pixel r i j = None \/ exists x, rs_pixel r i j = Some x /\ 0 <= x <= 1) ->
  exists flips salts g' g'' image, apply_salt_and_pepper_noise s r amount g = (image, g'') /\
    drawn (repeat (s_uniform s 0 1) (rs_height r * rs_width r)) g flips g' /\
    drawn (repeat (s_uniform s 0 1) (rs_height r * rs_width r)) g' salts g'' /\
    rs_height image = rs_height r /\ rs_width image = rs_width r /\
    forall i j, (i < rs_height r)%nat -> (j < rs_width r)%nat ->
      let k := (i * rs_width r + j)%nat in
      (amount < nth k flips 0 -> rs_pixel image i j = rs_pixel r i j) /\
      (nth k flips 0 <= amount -> nth k salts 0 <= 1 / 2 -> rs_pixel image i j = Some 1) /\
      (nth k flips 0 <= amount -> 1 / 2 < nth k salts 0 -> rs_pixel image i j = Some 0).
Proof.
  intros r amount g Hr. unfold apply_salt_and_pepper_noise.
  destruct (draw_array_drawn (s_uniform s 0 1) (rs_height r) (rs_width r) g) as (flips & Hf & Pf).
  destruct (draw_array _ _ _ g) as [fa g'] eqn:Ef. cbn [fst snd] in *.
  destruct (draw_array_drawn (s_uniform s 0 1) (rs_height r) (rs_width r) g') as (salts & Hs & Ps).
  destruct (draw_array _ _ _ g') as [sa g''] eqn:Es. cbn [fst snd] in *.
  exists flips, salts, g', g''. eexists. split; [reflexivity|]. split; [assumption|]; split; [assumption|].
  split; [reflexivity|]; split; [reflexivity|].
  assert (L : low_clip r = 0).
  { destruct (nan_or_numbers r) as [Hn | (x & Hx)]; [apply low_clip_nan; assumption|].
    apply (np_min_nonneg x _ _ r Hx). intros i j Hi Hj. destruct Hx as (_ & _ & Hx). specialize (Hx i j Hi Hj).
    destruct (Hr i j Hi Hj) as [E | (y & E & Hy)]; rewrite Hx in E; [discriminate|]. injection E as ->; lra. }
  rewrite L. intros i j Hi Hj. cbv zeta. cbn [clip_image raster_map rs_pixel]. rewrite Pf, Ps.
  set (k := (i * rs_width r + j)%nat).
  unfold Rleb. repeat split; intros; repeat destruct (Rle_dec _ _); try lra; cbn [option_map]; try (rewrite clip_unit by lra; reflexivity).
  destruct (Hr i j Hi Hj) as [-> | (x & -> & Hx)]; cbn [option_map]; [reflexivity|]. rewrite clip_unit by lra; reflexivity.
Qed.

(** Contrast raises the brightness to a power. *)
Theorem contrast_power : forall (x : nat -> nat -> R) (h w : nat) (r : frame) (gamma : R),
  shows x h w r -> (forall i j, (i < h)%nat -> (j < w)%nat -> 0 <= x i j) -> 0 < gamma ->
  exists image, apply_contrast r gamma = Ok image /\ rs_height image = h /\ rs_width image = w /\
    forall i j, (i < h)%nat -> (j < w)%nat -> exists y, rs_pixel image i j = Some y /\
      (x i j = 0 -> y = 0) /\ (0 < x i j -> y = exp (gamma * ln (x i j))) /\
      (0 <= x i j <= 1 -> 0 <= y <= 1).
Proof.
  intros x h w r gamma (Hh & Hw & Hx) H0 Hg. unfold apply_contrast.
  destruct (existsb _ _) eqn:E.
  { exfalso. apply existsb_exists in E. destruct E as (o & Ho & Hlt). apply In_pixels in Ho.
    destruct Ho as (i & j & Hi & Hj & ->). rewrite Hh in Hi; rewrite Hw in Hj. rewrite Hx in Hlt by assumption.
    apply Rltb_true in Hlt. specialize (H0 i j Hi Hj). lra. }
  destruct (Rltb gamma 0) eqn:E'; [apply Rltb_true in E'; lra|]. cbn [orb].
  eexists; split; [reflexivity|]. cbn. split; [assumption|]; split; [assumption|].
  intros i j Hi Hj. rewrite Hx by assumption. eexists; split; [reflexivity|]. unfold power.
  destruct (Reqb (x i j) 0) eqn:Ex.
  - apply Reqb_true in Ex. destruct (Reqb gamma 0) eqn:Eg; [apply Reqb_true in Eg; lra|]. repeat split; intros; lra.
  - apply Reqb_false in Ex. assert (0 < x i j) by (specialize (H0 i j Hi Hj); lra).
    split; [intros; lra|]. split; [reflexivity|]. intros [_ H1].
    pose proof (exp_pos (gamma * ln (x i j))). unfold Rpower. split; [lra|].
    assert (L : ln (x i j) <= 0).
    { rewrite <- ln_1. destruct (Rle_lt_or_eq_dec _ _ H1) as [L | ->]; [apply Rlt_le, ln_increasing; assumption|lra]. }
    rewrite <- exp_0. assert (L' : gamma * ln (x i j) <= 0) by nra.
    destruct (Rle_lt_or_eq_dec _ _ L') as [L'' | ->]; [apply Rlt_le, exp_increasing; assumption|lra].
Qed.
Theorem contrast_raises : forall (r : frame) (gamma : R),
  gamma < 0 \/ (exists i j x, (i < rs_height r)%nat /\ (j < rs_width r)%nat /\ rs_pixel r i j = Some x /\ x < 0) ->
  apply_contrast r gamma = Raise ValueError.
Proof.
  intros r gamma [H | (i & j & x & Hi & Hj & E & Hx)]; unfold apply_contrast.
  - replace (Rltb gamma 0) with true by (symmetry; apply Rltb_true; assumption). rewrite orb_true_r. reflexivity.
  - replace (existsb _ (pixels r)) with true; [reflexivity|]. symmetry. apply existsb_exists.
    exists (Some x). split; [apply In_pixels; exists i, j; auto|apply Rltb_true; assumption].
Qed.

(** Uniform noise adds to each pixel something between zero and the scale, and
    exponential noise something that is not negative; both scale the result. *)
Theorem uniform_noise : forall (x : nat -> nat -> R) (h w : nat) (r : frame) (scale : R) (g : G),
  (0 < h)%nat -> (0 < w)%nat -> 0 <= scale -> shows x h w r ->
  (forall i j, (i < h)%nat -> (j < w)%nat -> 0 <= x i j) ->
  exists noise g' image, apply_uniform_noise s r scale g = (image, g') /\
    drawn (repeat (s_uniform s 0 scale) (h * w)) g noise g' /\ Forall (fun u => 0 <= u <= scale) noise /\
    shows_scaled (fun i j => x i j + nth (i * w + j) noise 0) h w image.
Proof.
  intros x h w r scale g Hh0 Hw0 Hsc (Hh & Hw & Hx) H0. unfold apply_uniform_noise. rewrite Hh, Hw.
  destruct (draw_array_drawn (s_uniform s 0 scale) h w g) as (noise & Hd & Hp).
  destruct (draw_array _ _ _ g) as [na g'] eqn:E. cbn [fst snd] in *.
  exists noise, g'. eexists. split; [reflexivity|]. split; [assumption|].
  assert (HF : Forall (fun u => 0 <= u <= scale) noise).
  { apply (drawn_Forall _ _ _ _ _ Hd). intros d Hin g0. apply repeat_spec in Hin. subst d. apply (uniform_range s s_ok); assumption. }
  split; [assumption|]. apply scaled; cbn; auto. intros i j Hi Hj. rewrite Hx, Hp by assumption. split; [reflexivity|].
  specialize (H0 i j Hi Hj). assert (0 <= nth (i * w + j) noise 0 <= scale) by (apply nth_Forall with (P := fun u => 0 <= u <= scale); [assumption|lra]). lra.
Qed.
Theorem exponential_noise : forall (x : nat -> nat -> R) (h w : nat) (r : frame) (scale : R) (g : G),
  (0 < h)%nat -> (0 < w)%nat -> shows x h w r ->
  (forall i j, (i < h)%nat -> (j < w)%nat -> 0 <= x i j) ->
  exists noise g' image, apply_exponential_noise s r scale g = (image, g') /\
    drawn (repeat (s_exponential s scale) (h * w)) g noise g' /\ Forall (fun u => 0 <= u) noise /\
    shows_scaled (fun i j => x i j + nth (i * w + j) noise 0) h w image.
Proof.
  intros x h w r scale g Hh0 Hw0 (Hh & Hw & Hx) H0. unfold apply_exponential_noise. rewrite Hh, Hw.
  destruct (draw_array_drawn (s_exponential s scale) h w g) as (noise & Hd & Hp).
  destruct (draw_array _ _ _ g) as [na g'] eqn:E. cbn [fst snd] in *.
  exists noise, g'. eexists. split; [reflexivity|]. split; [assumption|].
  assert (HF : Forall (fun u => 0 <= u) noise).
  { apply (drawn_Forall _ _ _ _ _ Hd). intros d Hin g0. apply repeat_spec in Hin. subst d. apply (exponential_range s s_ok). }
  split; [assumption|]. apply scaled; cbn; auto. intros i j Hi Hj. rewrite Hx, Hp by assumption. split; [reflexivity|].
  specialize (H0 i j Hi Hj). assert (0 <= nth (i * w + j) noise 0) by (apply nth_Forall with (P := fun u => 0 <= u); [assumption|lra]). lra.
Qed.

(** Gaussian noise is added and the sum is cut off at zero (at minus one if the
    image has negative pixels) and at one; a variance of zero changes nothing. *)
Theorem gaussian_noise : forall (x : nat -> nat -> R) (h w : nat) (r : frame) (variance low : R) (g : G),
  shows x h w r ->
  (low = 0 /\ forall i j, (i < h)%nat -> (j < w)%nat -> 0 <= x i j) \/
  (low = -1 /\ exists i j, (i < h)%nat /\ (j < w)%nat /\ x i j < 0) ->
  exists noise g' image, apply_gaussian_noise s r variance g = (image, g') /\
    drawn (repeat (s_normal s (sqrt variance)) (h * w)) g noise g' /\
    shows (fun i j => Rmin 1 (Rmax low (x i j + nth (i * w + j) noise 0))) h w image /\
    (variance = 0 -> (forall i j, (i < h)%nat -> (j < w)%nat -> 0 <= x i j <= 1) -> shows x h w image).
Proof.
  intros x h w r variance low g Hsh Hlow. pose proof Hsh as (Hh & Hw & Hx). unfold apply_gaussian_noise. rewrite Hh, Hw.
  destruct (draw_array_drawn (s_normal s (sqrt variance)) h w g) as (noise & Hd & Hp).
  destruct (draw_array _ _ _ g) as [na g'] eqn:E. cbn [fst snd] in *.
  assert (L : low_clip r = low).
  { destruct Hlow as [[-> H] | [-> H]]; [apply (np_min_nonneg x h w r Hsh H)|apply (np_min_negative x h w r Hsh H)]. }
  rewrite L. exists noise, g'. eexists. split; [reflexivity|]. split; [assumption|].
  assert (Hshow : shows (fun i j => Rmin 1 (Rmax low (x i j + nth (i * w + j) noise 0))) h w (clip_image low (add_noise r na))).
  { split; [assumption|]; split; [assumption|]. intros i j Hi Hj. cbn. rewrite Hx, Hp by assumption. cbn. unfold clip.
    rewrite Rmin_comm, Rmax_comm. reflexivity. }
  split; [assumption|]. intros Hv H01. destruct Hshow as (A & B & C). split; [assumption|]; split; [assumption|].
  intros i j Hi Hj. rewrite C by assumption. f_equal.
  assert (HF : Forall (fun u => u = 0) noise).
  { apply (drawn_Forall _ _ _ _ _ Hd). intros d Hin g0. apply repeat_spec in Hin. subst d. rewrite Hv, sqrt_0. apply (normal_zero s s_ok). }
  rewrite (nth_Forall (fun u => u = 0) noise _ HF eq_refl), Rplus_0_r. specialize (H01 i j Hi Hj).
  destruct Hlow as [[-> _] | [-> (a & b & Ha & Hb & Hneg)]]; rewrite Rmax_right, Rmin_right; lra.
Qed.
End Stages.
Print Assumptions jitter_rolls.
Print Assumptions poisson_counts.
Print Assumptions poisson_raises.
Print Assumptions salt_and_pepper.
Print Assumptions contrast_power.
Print Assumptions contrast_raises.
Print Assumptions uniform_noise.
Print Assumptions exponential_noise.
Print Assumptions gaussian_noise.

(** ** Blur *)
Lemma mirrored_reflect n i k (line : nat -> option R) : mirrored n i k -> reflect_mode n line i = line k.
Proof.
  intros (Hk & p & [-> | ->]); unfold reflect_mode.
  - assert (E : ((p * (2 * Z.of_nat n) + Z.of_nat k) mod (2 * Z.of_nat n) = Z.of_nat k)%Z).
    { rewrite Z.add_comm, Z.mod_add by lia. apply Z.mod_small; lia. }
    rewrite E. destruct (Z.ltb_spec (Z.of_nat k) (Z.of_nat n)); [|lia]. f_equal; lia.
  - assert (E : ((p * (2 * Z.of_nat n) + 2 * Z.of_nat n - 1 - Z.of_nat k) mod (2 * Z.of_nat n) = 2 * Z.of_nat n - 1 - Z.of_nat k)%Z).
    { replace (p * (2 * Z.of_nat n) + 2 * Z.of_nat n - 1 - Z.of_nat k)%Z with (2 * Z.of_nat n - 1 - Z.of_nat k + p * (2 * Z.of_nat n))%Z by lia.
      rewrite Z.mod_add by lia. apply Z.mod_small; lia. }
    rewrite E. destruct (Z.ltb_spec (2 * Z.of_nat n - 1 - Z.of_nat k) (Z.of_nat n)); [lia|]. f_equal; lia.
Qed.
Lemma mirrored_exists n i : (0 < n)%nat -> exists k, mirrored n i k.
Proof.
  intro Hn. pose proof (Z.mod_pos_bound i (2 * Z.of_nat n) ltac:(lia)) as B.
  pose proof (Z.div_mod i (2 * Z.of_nat n) ltac:(lia)) as D.
  set (m := (i mod (2 * Z.of_nat n))%Z) in *. set (q := (i / (2 * Z.of_nat n))%Z) in *.
  destruct (Z_lt_ge_dec m (Z.of_nat n)).
  - exists (Z.to_nat m). split; [lia|]. exists q. left. lia.
  - exists (Z.to_nat (2 * Z.of_nat n - 1 - m)). split; [lia|]. exists q. right. lia.
Qed.
Definition offsets (sigma : R) : list Z := map (fun k => (Z.of_nat k - reach sigma)%Z) (seq 0 (Z.to_nat (2 * reach sigma + 1))).
Lemma window_offsets sigma : 0 < sigma -> window (kernel_radius sigma) = offsets sigma.
Proof.
  intro H. destruct (reach_radius sigma H) as [Hr H0]. unfold window, offsets.
  replace (Z.to_nat (2 * reach sigma + 1)) with (2 * kernel_radius sigma + 1)%nat by lia. rewrite Hr. reflexivity.
Qed.
Lemma reflected_line sigma n (x : nat -> R) line (mir : Z -> nat) i : 0 < sigma ->
  (forall m, (m < n)%nat -> line m = Some (x m)) -> (forall z, mirrored n z (mir z)) ->
  gaussian_line reflect_mode sigma n line i = Some (rsum (map (fun k => spread sigma k * x (mir (Z.of_nat i + k)%Z)) (offsets sigma))).
Proof.
  intros Hs Hline Hmir. unfold gaussian_line.
  rewrite (weighted_sum_numbers (kernel sigma) (fun k => x (mir (Z.of_nat i + k)%Z))).
  - f_equal. rewrite <- window_offsets by assumption. apply rsum_map_ext. intros k Hk. rewrite kernel_spread by assumption. reflexivity.
  - intros k _. rewrite (mirrored_reflect n _ _ line (Hmir _)). apply Hline. apply (Hmir (Z.of_nat i + k)%Z).
Qed.

(** Blurring is a weighted mean of the pixels around, of the image continued by
    mirroring, followed by scaling to a maximum of one. *)
Theorem blur_mean : forall (x : nat -> nat -> R) (h w : nat) (r : frame) (amount : R) (row col : Z -> nat),
  (0 < h)%nat -> (0 < w)%nat -> shows x h w r -> (forall i j, (i < h)%nat -> (j < w)%nat -> 0 <= x i j) ->
  (forall i, mirrored h i (row i)) -> (forall j, mirrored w j (col j)) ->
  (amount <= 1 / 10 ^ 15 -> shows_scaled x h w (apply_blur r amount)) /\
  (1 / 10 ^ 15 < amount ->
    shows_scaled (fun i j => rsum (map (fun l => spread amount l * rsum (map (fun k =>
      spread amount k * x (row (Z.of_nat i + k)%Z) (col (Z.of_nat j + l)%Z)) (offsets amount))) (offsets amount)))
      h w (apply_blur r amount)).
Proof.
  intros x h w r a row col Hh0 Hw0 (Hh & Hw & Hx) H0 Hrow Hcol. unfold apply_blur, gaussian_filter. split; intro Ha.
  - replace (negligible a) with true; [|symmetry; unfold negligible, Rleb; destruct (Rle_dec _ _); [reflexivity|lra]].
    apply scaled; auto.
  - replace (negligible a) with false; [|symmetry; unfold negligible, Rleb; destruct (Rle_dec _ _); [lra|reflexivity]].
    assert (Hpos : 0 < a) by lra.
    apply scaled; auto. intros i j Hi Hj. cbn [rs_pixel rs_height rs_width]. split.
    + rewrite Hw. rewrite (reflected_line a w (fun j' => rsum (map (fun k => spread a k * x (row (Z.of_nat i + k)%Z) j') (offsets a))) _ col); auto.
      intros j' Hj'. cbn. rewrite Hh. apply (reflected_line a h (fun i' => x i' j') _ row); auto.
    + apply rsum_nonneg. intros y Hy. apply in_map_iff in Hy. destruct Hy as (l & <- & _).
      apply Rmult_le_pos; [apply spread_nonneg|]. apply rsum_nonneg. intros y Hy. apply in_map_iff in Hy. destruct Hy as (k & <- & _).
      apply Rmult_le_pos; [apply spread_nonneg|]. apply H0; [apply (Hrow (Z.of_nat i + k)%Z)|apply (Hcol (Z.of_nat j + l)%Z)].
Qed.
Print Assumptions blur_mean.

Lemma weighted_sum_nan l w : In (w, None) l -> weighted_sum l = None.
Proof.
  induction l as [|[v [x|]] l IH]; intro H; cbn; [destruct H| |reflexivity].
  destruct H as [H | H]; [discriminate|]. rewrite IH by assumption. reflexivity.
Qed.
Lemma line_nan sigma n line i : 0 < sigma -> (i < n)%nat -> line i = None -> gaussian_line reflect_mode sigma n line i = None.
Proof.
  intros Hs Hi E. unfold gaussian_line. apply weighted_sum_nan with (kernel sigma 0). apply in_map_iff. exists 0%Z. split.
  - f_equal. rewrite Z.add_0_r. rewrite (mirrored_reflect n _ i line); [assumption|]. split; [assumption|]. exists 0%Z. left; lia.
  - apply In_window. cbn. lia.
Qed.
(** One NaN makes the whole image NaN in the stages that scale. *)
Theorem nan_spreads : forall {G : Type} (s : sampler G) (r : frame) (scale : R) (g : G), some_nan r ->
  all_nan (rs_height r) (rs_width r) (apply_blur r scale) /\
  all_nan (rs_height r) (rs_width r) (fst (apply_uniform_noise s r scale g)) /\
  all_nan (rs_height r) (rs_width r) (fst (apply_exponential_noise s r scale g)).
Proof.
  intros G s r a g Hn. pose proof Hn as (i & j & Hi & Hj & E).
  assert (Hadd : forall noise, some_nan (add_noise r noise)).
  { intro noise. exists i, j. cbn. rewrite E. auto. }
  split; [|split].
  - unfold apply_blur, gaussian_filter. destruct (negligible a) eqn:Ea; [apply divide_nan; assumption|].
    assert (Ha : 0 < a).
    { unfold negligible, Rleb in Ea. destruct (Rle_dec _ _); [discriminate|]. lra. }
    match goal with |- all_nan _ _ (divide_by_max ?x) => change (all_nan (rs_height x) (rs_width x) (divide_by_max x)) end.
    apply divide_nan. exists i, j. cbn [rs_pixel rs_height rs_width]. split; [assumption|]; split; [assumption|].
    apply line_nan; [assumption|assumption|]. apply line_nan; assumption.
  - unfold apply_uniform_noise. destruct (draw_array _ _ _ _) as [noise g']. cbn [fst].
    apply (divide_nan (add_noise r noise)). apply Hadd.
  - unfold apply_exponential_noise. destruct (draw_array _ _ _ _) as [noise g']. cbn [fst].
    apply (divide_nan (add_noise r noise)). apply Hadd.
Qed.
Print Assumptions nan_spreads.

(** ** The whole image *)

(** each pixel is NaN or between zero and one *)
Definition unit_or_nan (r : frame) : Prop := forall i j, (i < rs_height r)%nat -> (j < rs_width r)%nat ->
  rs_pixel r i j = None \/ exists x, rs_pixel r i j = Some x /\ 0 <= x <= 1.
(** all are NaN or all are between zero and one *)
Definition unit_image (h w : nat) (r : frame) : Prop :=
  all_nan h w r \/ exists x, shows x h w r /\ forall i j, (i < h)%nat -> (j < w)%nat -> 0 <= x i j <= 1.

Lemma scaled_unit v h w r : (0 < h)%nat -> (0 < w)%nat -> shows_scaled v h w r ->
  all_nan h w r \/ exists x, shows x h w r /\ (forall i j, (i < h)%nat -> (j < w)%nat -> 0 <= x i j <= 1).
Proof.
  intros Hh0 Hw0 (Hh & Hw & [H | (i0 & j0 & Hi0 & Hj0 & Hp & H)]).
  - left. split; [assumption|]; split; [assumption|]. intros i j Hi Hj. apply H; assumption.
  - right. exists (fun i j => v i j / v i0 j0). split.
    + split; [assumption|]; split; [assumption|]. intros i j Hi Hj. apply H; assumption.
    + intros i j Hi Hj. destruct (H i j Hi Hj) as [[B1 B2] _]. split.
      * apply Rmult_le_pos; [assumption|]. apply Rlt_le, Rinv_0_lt_compat; assumption.
      * apply Rmult_le_reg_r with (v i0 j0); [assumption|]. unfold Rdiv. rewrite Rmult_assoc, Rinv_l by lra. lra.
Qed.

Section Whole.
Context {G : Type}.
Variable s : sampler G.
Variable poisson : R -> G -> nat * G.
Hypothesis s_ok : sampler_ok s.

Lemma contrast_mixed r gamma : unit_or_nan r -> 0 < gamma -> exists r', apply_contrast r gamma = Ok r' /\
  rs_height r' = rs_height r /\ rs_width r' = rs_width r /\ unit_or_nan r'.
Proof.
  intros Hr Hg. unfold apply_contrast.
  destruct (existsb _ _) eqn:E.
  { exfalso. apply existsb_exists in E. destruct E as (o & Ho & Hlt). apply In_pixels in Ho.
    destruct Ho as (i & j & Hi & Hj & ->). destruct (Hr i j Hi Hj) as [E | (x & E & Hx)]; rewrite E in Hlt; [discriminate|].
    apply Rltb_true in Hlt. lra. }
  destruct (Rltb gamma 0) eqn:E'; [apply Rltb_true in E'; lra|]. cbn [orb].
  eexists; split; [reflexivity|]. cbn. split; [reflexivity|]; split; [reflexivity|].
  intros i j Hi Hj. cbn in Hi, Hj |- *. destruct (Hr i j Hi Hj) as [-> | (x & -> & Hx)].
  - destruct (Reqb gamma 0) eqn:Eg; [apply Reqb_true in Eg; lra|]. auto.
  - right. eexists; split; [reflexivity|]. unfold power. destruct (Reqb x 0) eqn:Ex.
    + destruct (Reqb gamma 0); lra.
    + apply Reqb_false in Ex. pose proof (exp_pos (gamma * ln x)). unfold Rpower. split; [lra|].
      assert (L : ln x <= 0).
      { rewrite <- ln_1. destruct (Rle_lt_or_eq_dec x 1) as [L | ->]; [lra|apply Rlt_le, ln_increasing; lra|lra]. }
      rewrite <- exp_0. assert (L' : gamma * ln x <= 0) by nra.
      destruct (Rle_lt_or_eq_dec _ _ L') as [L'' | ->]; [apply Rlt_le, exp_increasing; assumption|lra].
Qed.
Lemma jitter_mixed r rate g : unit_or_nan r -> unit_or_nan (fst (apply_jitter poisson r rate g)) /\
  rs_height (fst (apply_jitter poisson r rate g)) = rs_height r /\ rs_width (fst (apply_jitter poisson r rate g)) = rs_width r.
Proof.
  intro Hr. unfold apply_jitter. destruct (draw_each _ _ _) as [rolls g']. cbn. split; [|auto].
  intros i j Hi Hj. cbn in *. apply Hr; [assumption|]. unfold roll_index. apply Nat.mod_upper_bound. lia.
Qed.
Lemma unit_image_mixed h w r : unit_image h w r -> unit_or_nan r.
Proof.
  intros [(Hh & Hw & H) | (x & (Hh & Hw & H) & Hx)] i j Hi Hj; rewrite Hh in Hi; rewrite Hw in Hj.
  - left; auto.
  - right. exists (x i j). auto.
Qed.
Lemma mixed_cases r : unit_or_nan r -> some_nan r \/ exists x, shows x (rs_height r) (rs_width r) r /\
  forall i j, (i < rs_height r)%nat -> (j < rs_width r)%nat -> 0 <= x i j <= 1.
Proof.
  intro Hr. destruct (nan_or_numbers r) as [H | (x & Hx)]; [auto|]. right. exists x. split; [assumption|].
  intros i j Hi Hj. destruct Hx as (_ & _ & Hx). specialize (Hx i j Hi Hj).
  destruct (Hr i j Hi Hj) as [E | (y & E & Hy)]; rewrite Hx in E; [discriminate|]. injection E as ->. assumption.
Qed.
Lemma uniform_unit r scale g : (0 < rs_height r)%nat -> (0 < rs_width r)%nat -> 0 <= scale -> unit_or_nan r ->
  unit_image (rs_height r) (rs_width r) (fst (apply_uniform_noise s r scale g)).
Proof.
  intros Hh Hw Hs Hr. destruct (mixed_cases r Hr) as [Hn | (x & Hx & H0)].
  - left. apply (nan_spreads s r scale g Hn).
  - destruct (uniform_noise s s_ok x _ _ r scale g Hh Hw Hs Hx) as (noise & g' & image & E & _ & _ & Hsc); [intros; apply H0; assumption|].
    rewrite E. apply (scaled_unit _ _ _ _ Hh Hw Hsc).
Qed.
Lemma exponential_unit r scale g : (0 < rs_height r)%nat -> (0 < rs_width r)%nat -> unit_or_nan r ->
  unit_image (rs_height r) (rs_width r) (fst (apply_exponential_noise s r scale g)).
Proof.
  intros Hh Hw Hr. destruct (mixed_cases r Hr) as [Hn | (x & Hx & H0)].
  - left. apply (nan_spreads s r scale g Hn).
  - destruct (exponential_noise s s_ok x _ _ r scale g Hh Hw Hx) as (noise & g' & image & E & _ & _ & Hsc); [intros; apply H0; assumption|].
    rewrite E. apply (scaled_unit _ _ _ _ Hh Hw Hsc).
Qed.
Lemma gaussian_unit h w r variance g : unit_image h w r -> unit_image h w (fst (apply_gaussian_noise s r variance g)).
Proof.
  intros [(Hh & Hw & H) | (x & Hx & H0)].
  - left. unfold apply_gaussian_noise. destruct (draw_array _ _ _ _) as [noise g']. cbn.
    split; [assumption|]; split; [assumption|]. intros i j Hi Hj. cbn. rewrite H by assumption. reflexivity.
  - right. destruct (gaussian_noise s s_ok x h w r variance 0 g Hx) as (noise & g' & image & E & _ & Hs & _).
    { left. split; [reflexivity|]. intros; apply H0; assumption. }
    rewrite E. eexists. split; [exact Hs|]. intros i j _ _. cbv beta.
    unfold Rmin, Rmax. repeat destruct (Rle_dec _ _); lra.
Qed.

Lemma all_nan_some h w r : (0 < h)%nat -> (0 < w)%nat -> all_nan h w r -> some_nan r.
Proof. intros Hh Hw (A & B & C). exists 0%nat, 0%nat. rewrite A, B. auto. Qed.
Lemma offsets_zero sigma : 0 < sigma -> In 0%Z (offsets sigma).
Proof. intro H. rewrite <- window_offsets by assumption. apply In_window. cbn; lia. Qed.

Lemma blur_unit n image x i1 j1 amount : (0 < n)%nat -> shows x n n image ->
  (forall i j, (i < n)%nat -> (j < n)%nat -> 0 <= x i j <= 1) -> (i1 < n)%nat -> (j1 < n)%nat -> x i1 j1 = 1 ->
  exists y, shows y n n (apply_blur image amount) /\ forall i j, (i < n)%nat -> (j < n)%nat -> 0 <= y i j <= 1.
Proof.
  intros Hn Hx Hx01 Hi1 Hj1 Hx1.
  destruct (Rle_lt_dec (amount) (1 / 10 ^ 15)) as [L | L].
    - set (mir := fun z => Z.to_nat (if (z mod (2 * Z.of_nat n) <? Z.of_nat n)%Z then z mod (2 * Z.of_nat n) else 2 * Z.of_nat n - 1 - z mod (2 * Z.of_nat n))%Z).
      assert (Hmir : forall z, mirrored n z (mir z)).
      { intro z. pose proof (Z.mod_pos_bound z (2 * Z.of_nat n) ltac:(lia)) as B. pose proof (Z.div_mod z (2 * Z.of_nat n) ltac:(lia)) as D.
        unfold mir, mirrored. destruct (Z.ltb_spec (z mod (2 * Z.of_nat n)) (Z.of_nat n)).
        - split; [lia|]. exists (z / (2 * Z.of_nat n))%Z. left; lia.
        - split; [lia|]. exists (z / (2 * Z.of_nat n))%Z. right; lia. }
      destruct (blur_mean x n n image (amount) mir mir Hn Hn Hx ltac:(intros; apply Hx01; assumption) Hmir Hmir) as [H _].
      specialize (H L). destruct H as (A & B & [H | (i0 & j0 & Hi0 & Hj0 & Hp0 & H)]).
      + exfalso. destruct (H i1 j1 Hi1 Hj1) as [E _]. lra.
      + destruct (scaled_unit x n n (apply_blur image (amount)) Hn Hn) as [(_ & _ & Hnan) | Hu'].
        * split; [assumption|]; split; [assumption|]. right. exists i0, j0. auto.
        * exfalso. destruct (H i0 j0 Hi0 Hj0) as [_ E]. rewrite Hnan in E by assumption. discriminate.
        * exact Hu'.
    - set (mir := fun z => Z.to_nat (if (z mod (2 * Z.of_nat n) <? Z.of_nat n)%Z then z mod (2 * Z.of_nat n) else 2 * Z.of_nat n - 1 - z mod (2 * Z.of_nat n))%Z).
      assert (Hmir : forall z, mirrored n z (mir z)).
      { intro z. pose proof (Z.mod_pos_bound z (2 * Z.of_nat n) ltac:(lia)) as B. pose proof (Z.div_mod z (2 * Z.of_nat n) ltac:(lia)) as D.
        unfold mir, mirrored. destruct (Z.ltb_spec (z mod (2 * Z.of_nat n)) (Z.of_nat n)).
        - split; [lia|]. exists (z / (2 * Z.of_nat n))%Z. left; lia.
        - split; [lia|]. exists (z / (2 * Z.of_nat n))%Z. right; lia. }
      assert (Hmir0 : forall k, (k < n)%nat -> mir (Z.of_nat k + 0)%Z = k).
      { intros k Hk. unfold mir. rewrite Z.add_0_r, Z.mod_small by lia. destruct (Z.ltb_spec (Z.of_nat k) (Z.of_nat n)); lia. }
      destruct (blur_mean x n n image (amount) mir mir Hn Hn Hx ltac:(intros; apply Hx01; assumption) Hmir Hmir) as [_ H].
      specialize (H L). set (a := amount) in *.
      assert (Ha : 0 < a) by lra.
      match type of H with shows_scaled ?v _ _ _ => set (b := v) in H end.
      assert (Hb : 0 < b i1 j1).
      { unfold b. apply rsum_pos with (spread a 0 * rsum (map (fun k => spread a k * x (mir (Z.of_nat i1 + k)%Z) (mir (Z.of_nat j1 + 0)%Z)) (offsets a))).
        - intros y Hy. apply in_map_iff in Hy. destruct Hy as (l & <- & _).
          apply Rmult_le_pos; [apply spread_nonneg|]. apply rsum_nonneg. intros y Hy. apply in_map_iff in Hy. destruct Hy as (k & <- & _).
          apply Rmult_le_pos; [apply spread_nonneg|]. apply Hx01; [apply (Hmir (Z.of_nat i1 + k)%Z)|apply (Hmir (Z.of_nat j1 + l)%Z)].
        - apply in_map_iff. exists 0%Z. split; [reflexivity|apply offsets_zero; assumption].
        - apply Rmult_lt_0_compat; [apply spread_self; assumption|].
          apply rsum_pos with (spread a 0 * x (mir (Z.of_nat i1 + 0)%Z) (mir (Z.of_nat j1 + 0)%Z)).
          + intros y Hy. apply in_map_iff in Hy. destruct Hy as (k & <- & _).
            apply Rmult_le_pos; [apply spread_nonneg|]. apply Hx01; [apply (Hmir (Z.of_nat i1 + k)%Z)|apply (Hmir (Z.of_nat j1 + 0)%Z)].
          + apply in_map_iff. exists 0%Z. split; [reflexivity|apply offsets_zero; assumption].
          + rewrite !Hmir0, Hx1 by assumption. pose proof (spread_self a Ha). lra. }
      pose proof H as (A & B & [H' | (i0 & j0 & Hi0 & Hj0 & Hp0 & H')]).
      + exfalso. destruct (H' i1 j1 Hi1 Hj1) as [E _]. lra.
      + destruct (scaled_unit b n n (apply_blur image a) Hn Hn H) as [(_ & _ & Hnan) | Hu'].
        * exfalso. destruct (H' i0 j0 Hi0 Hj0) as [_ E]. rewrite Hnan in E by assumption. discriminate.
        * exact Hu'.
Qed.

Lemma uniform_stage r scale g : unit_or_nan r -> 0 <= scale -> forall n, (0 < n)%nat -> rs_height r = n -> rs_width r = n ->
  exists u g' image, apply_uniform_noise s r scale g = (image, g') /\
    drawn (repeat (s_uniform s 0 scale) (n * n)) g u g' /\ unit_image n n image /\
    ((some_nan r /\ all_nan n n image) \/
     exists x, shows x n n r /\ (forall i j, (i < n)%nat -> (j < n)%nat -> 0 <= x i j <= 1) /\
       shows_scaled (fun i j => x i j + nth (i * n + j) u 0) n n image).
Proof.
  intros Hr Hs n Hn Hh Hw. destruct (mixed_cases r Hr) as [Hnan | (x & Hx & H0)]; rewrite ?Hh, ?Hw in *.
  - destruct (nan_spreads s r scale g Hnan) as (_ & A & _). rewrite Hh, Hw in A.
    destruct (draw_array_drawn (s_uniform s 0 scale) n n g) as (u & Hd & _).
    exists u, (snd (draw_array (s_uniform s 0 scale) n n g)), (fst (apply_uniform_noise s r scale g)).
    unfold apply_uniform_noise in *. rewrite Hh, Hw in *. destruct (draw_array _ _ _ _) as [na g']. cbn [fst snd] in *.
    split; [reflexivity|]; split; [assumption|]; split; left; auto.
  - destruct (uniform_noise s s_ok x n n r scale g Hn Hn Hs Hx) as (u & g' & image & E & Hd & _ & Hsc); [intros; apply H0; assumption|].
    exists u, g', image. split; [assumption|]; split; [assumption|]; split; [apply (scaled_unit _ _ _ _ Hn Hn Hsc)|].
    right. exists x. auto.
Qed.
Lemma exponential_stage r scale g : unit_or_nan r -> forall n, (0 < n)%nat -> rs_height r = n -> rs_width r = n ->
  exists u g' image, apply_exponential_noise s r scale g = (image, g') /\
    drawn (repeat (s_exponential s scale) (n * n)) g u g' /\ unit_image n n image /\
    ((some_nan r /\ all_nan n n image) \/
     exists x, shows x n n r /\ (forall i j, (i < n)%nat -> (j < n)%nat -> 0 <= x i j <= 1) /\
       shows_scaled (fun i j => x i j + nth (i * n + j) u 0) n n image).
Proof.
  intros Hr n Hn Hh Hw. destruct (mixed_cases r Hr) as [Hnan | (x & Hx & H0)]; rewrite ?Hh, ?Hw in *.
  - destruct (nan_spreads s r scale g Hnan) as (_ & _ & A). rewrite Hh, Hw in A.
    destruct (draw_array_drawn (s_exponential s scale) n n g) as (u & Hd & _).
    exists u, (snd (draw_array (s_exponential s scale) n n g)), (fst (apply_exponential_noise s r scale g)).
    unfold apply_exponential_noise in *. rewrite Hh, Hw in *. destruct (draw_array _ _ _ _) as [na g']. cbn [fst snd] in *.
    split; [reflexivity|]; split; [assumption|]; split; left; auto.
  - destruct (exponential_noise s s_ok x n n r scale g Hn Hn Hx) as (u & g' & image & E & Hd & _ & Hsc); [intros; apply H0; assumption|].
    exists u, g', image. split; [assumption|]; split; [assumption|]; split; [apply (scaled_unit _ _ _ _ Hn Hn Hsc)|].
    right. exists x. auto.
Qed.
Lemma gaussian_stage r variance g n : unit_image n n r ->
  exists z g' image, apply_gaussian_noise s r variance g = (image, g') /\
    drawn (repeat (s_normal s (sqrt variance)) (n * n)) g z g' /\
    ((all_nan n n r /\ all_nan n n image) \/
     exists x, shows x n n r /\ shows (fun i j => Rmin 1 (Rmax 0 (x i j + nth (i * n + j) z 0))) n n image).
Proof.
  intros [(Hh & Hw & H) | (x & Hx & H0)].
  - unfold apply_gaussian_noise. rewrite Hh, Hw.
    destruct (draw_array_drawn (s_normal s (sqrt variance)) n n g) as (u & Hd & _).
    destruct (draw_array _ _ _ _) as [na g']. cbn [fst snd] in *.
    eexists u, g', _. split; [reflexivity|]; split; [assumption|]. left. split; [split; auto|].
    split; [assumption|]; split; [assumption|]. intros i j Hi Hj. cbn. rewrite H by assumption. reflexivity.
  - destruct (gaussian_noise s s_ok x n n r variance 0 g Hx) as (z & g' & image & E & Hd & Hs & _).
    { left. split; [reflexivity|]. intros; apply H0; assumption. }
    exists z, g', image. split; [assumption|]; split; [assumption|]. right. exists x. auto.
Qed.

Variable equalize : frame -> R -> res frame.
Variables (g : grid) (f : fov) (params : image_parameters) (n : nat).
Hypothesis lengths : length (positions g) = length (numbers g).
Hypothesis atomic_numbers : Forall (fun z => 0 < z)%Z (numbers g).
Hypothesis view : 0 < width f < 10 ^ 14 /\ 0 < height f < 10 ^ 14.
Hypothesis size : ip_image_size params = n /\ (0 < n)%nat.

(** A view without atoms cannot be imaged. *)
Theorem stem_image_no_atoms : forall rng : G,
  (forall p, In p (positions g) -> ~ (0 <= px p <= 1 /\ 0 <= py p <= 1)) ->
  generate_stem_image s poisson equalize g f params rng 0 = (Raise ValueError, rng).
Proof.
  intros rng Hno. destruct size as [Hsz Hn]. unfold generate_stem_image. rewrite Hsz.
  destruct (clean_image_nan g f (ip_intensity_exponent params) n lengths atomic_numbers Hn (proj1 view) (proj2 view))
    as (image & -> & Hh & Hw & H1 & _).
  specialize (H1 Hno).
  assert (Hnan : some_nan image) by (apply (all_nan_some n n); [assumption|assumption|]; split; auto).
  destruct (nan_spreads s image (ip_blur_amount params) rng Hnan) as (Hb & _). rewrite Hh, Hw in Hb.
  rewrite (poisson_raises poisson); [reflexivity|]. left. apply (all_nan_some n n); assumption.
Qed.

(** A view with an atom can: the image that is equalized last has the given
    size, and its pixels are all between zero and one, or all NaN. *)
Theorem stem_image : forall rng : G,
  (exists p, In p (positions g) /\ 0 <= px p <= 1 /\ 0 <= py p <= 1) ->
  0 <= ip_poisson_rate_multiplier params -> 0 < ip_contrast_gamma params -> 0 <= ip_uniform_noise_scale params ->
  exists image rng', generate_stem_image s poisson equalize g f params rng 0 = (equalize image (1 / 100), rng') /\
    (all_nan n n image \/
     exists x, shows x n n image /\ forall i j, (i < n)%nat -> (j < n)%nat -> 0 <= x i j <= 1).
Proof.
  intros rng Hat Hm Hg Hu. destruct size as [Hsz Hn]. unfold generate_stem_image. rewrite Hsz.
  destruct (clean_image_nan g f (ip_intensity_exponent params) n lengths atomic_numbers Hn (proj1 view) (proj2 view))
    as (image & -> & Hh & Hw & _ & H1).
  destruct (H1 Hat) as [Hp (i1 & j1 & Hi1 & Hj1 & E1)]. clear H1.
  assert (Hx : exists x, shows x n n image /\ (forall i j, (i < n)%nat -> (j < n)%nat -> 0 <= x i j <= 1) /\ x i1 j1 = 1).
  { exists (fun i j => match rs_pixel image i j with Some v => v | None => 0 end). split; [|split].
    - split; [assumption|]; split; [assumption|]. intros i j Hi Hj. destruct (Hp i j Hi Hj) as (x & -> & _). reflexivity.
    - intros i j Hi Hj. destruct (Hp i j Hi Hj) as (x & -> & H). assumption.
    - rewrite E1. reflexivity. }
  destruct Hx as (x & Hx & Hx01 & Hx1).
  destruct (blur_unit n image x i1 j1 (ip_blur_amount params) Hn Hx Hx01 Hi1 Hj1 Hx1) as (y & Hy & Hy01).
  destruct (poisson_counts poisson y n n _ (ip_poisson_rate_multiplier params) rng Hn Hn Hy) as (counts & g1 & image1 & -> & _ & Hc).
  { intros i j Hi Hj. specialize (Hy01 i j Hi Hj). nra. }
  apply scaled_unit in Hc; [|assumption|assumption].
  assert (Hsh1 : rs_height image1 = n /\ rs_width image1 = n).
  { destruct Hc as [(A & B & _) | (z & (A & B & _) & _)]; auto. }
  apply unit_image_mixed in Hc.
  destruct (jitter_mixed image1 (ip_jitter_rate params) g1 Hc) as (Hj & Hjh & Hjw).
  destruct (apply_jitter poisson image1 (ip_jitter_rate params) g1) as [image2 g2]. cbn [fst] in Hj, Hjh, Hjw.
  rewrite (proj1 Hsh1) in Hjh. rewrite (proj2 Hsh1) in Hjw.
  destruct (salt_and_pepper s image2 (ip_salt_and_pepper_amount params) g2 Hj) as (flips & salts & g3' & g3 & image3 & -> & _ & _ & Hh3 & Hw3 & H3).
  assert (Hmix3 : unit_or_nan image3).
  { intros i j Hi Hj'. rewrite Hh3 in Hi. rewrite Hw3 in Hj'. destruct (H3 i j Hi Hj') as (C1 & C2 & C3).
    set (k := (i * rs_width image2 + j)%nat) in *.
    destruct (Rle_lt_dec (nth k flips 0) (ip_salt_and_pepper_amount params)) as [L | L].
    - destruct (Rle_lt_dec (nth k salts 0) (1 / 2)) as [L' | L'].
      + right. exists 1. split; [auto|lra].
      + right. exists 0. split; [auto|lra].
    - rewrite C1 by assumption. apply Hj; assumption. }
  rewrite Hjh in Hh3. rewrite Hjw in Hw3.
  destruct (contrast_mixed image3 _ Hmix3 Hg) as (image4 & -> & Hh4 & Hw4 & Hmix4).
  rewrite Hh3 in Hh4. rewrite Hw3 in Hw4.
  pose proof (uniform_unit image4 (ip_uniform_noise_scale params) g3 ltac:(lia) ltac:(lia) Hu Hmix4) as H5.
  destruct (apply_uniform_noise s image4 (ip_uniform_noise_scale params) g3) as [image5 g5]. cbn [fst] in H5. rewrite Hh4, Hw4 in H5.
  assert (Hsh5 : rs_height image5 = n /\ rs_width image5 = n).
  { destruct H5 as [(A & B & _) | (z & (A & B & _) & _)]; auto. }
  pose proof (exponential_unit image5 (ip_exponential_lambda params) g5 ltac:(lia) ltac:(lia) (unit_image_mixed _ _ _ H5)) as H6.
  destruct (apply_exponential_noise s image5 (ip_exponential_lambda params) g5) as [image6 g6]. cbn [fst] in H6.
  rewrite (proj1 Hsh5), (proj2 Hsh5) in H6.
  pose proof (gaussian_unit n n image6 (ip_gaussian_variance params) g6 H6) as H7.
  destruct (apply_gaussian_noise s image6 (ip_gaussian_variance params) g6) as [image7 g7]. cbn [fst] in H7.
  exists image7, g7. split; [reflexivity|exact H7].
Qed.

(** What is drawn, in which order, and what becomes of it.  The brightness [y] of
    the blurred clean image gives the counts, which are scaled, moved along the
    rows, salted and peppered, raised to a power, and get uniform, exponential
    and Gaussian noise. *)
Theorem stem_image_stages : forall rng : G,
  (exists p, In p (positions g) /\ 0 <= px p <= 1 /\ 0 <= py p <= 1) ->
  0 <= ip_poisson_rate_multiplier params -> 0 < ip_contrast_gamma params -> 0 <= ip_uniform_noise_scale params ->
  exists clean y counts g1 rolls g2 flips g3 salts g4 u g5 e g6 z g7 image,
    generate_clean_image g f (ip_intensity_exponent params) n 0 = Ok clean /\
    shows y n n (apply_blur clean (ip_blur_amount params)) /\
    drawn (flat_map (fun i => map (fun j => poisson (y i j * ip_poisson_rate_multiplier params)) (seq 0 n)) (seq 0 n)) rng counts g1 /\
    drawn (repeat (poisson (ip_jitter_rate params)) n) g1 rolls g2 /\
    drawn (repeat (s_uniform s 0 1) (n * n)) g2 flips g3 /\
    drawn (repeat (s_uniform s 0 1) (n * n)) g3 salts g4 /\
    drawn (repeat (s_uniform s 0 (ip_uniform_noise_scale params)) (n * n)) g4 u g5 /\
    drawn (repeat (s_exponential s (ip_exponential_lambda params)) (n * n)) g5 e g6 /\
    drawn (repeat (s_normal s (sqrt (ip_gaussian_variance params))) (n * n)) g6 z g7 /\
    generate_stem_image s poisson equalize g f params rng 0 = (equalize image (1 / 100), g7) /\
    forall brightest : R, 0 < brightest ->
      (forall i j, (i < n)%nat -> (j < n)%nat -> INR (nth (i * n + j) counts 0%nat) <= brightest) ->
      (exists i j, (i < n)%nat /\ (j < n)%nat /\ INR (nth (i * n + j) counts 0%nat) = brightest) ->
      exists x image5,
        (forall i j, (i < n)%nat -> (j < n)%nat ->
           let j' := ((j + nth i rolls 0) mod n)%nat in
           let k := (i * n + j')%nat in
           let c := INR (nth (i * n + j) counts 0%nat) in
           (ip_salt_and_pepper_amount params < nth k flips 0 ->
              (c = 0 -> x i j' = 0) /\ (0 < c -> x i j' = exp (ip_contrast_gamma params * ln (c / brightest)))) /\
           (nth k flips 0 <= ip_salt_and_pepper_amount params -> nth k salts 0 <= 1 / 2 -> x i j' = 1) /\
           (nth k flips 0 <= ip_salt_and_pepper_amount params -> 1 / 2 < nth k salts 0 -> x i j' = 0)) /\
        shows_scaled (fun i j => x i j + nth (i * n + j) u 0) n n image5 /\
        ((all_nan n n image5 /\ all_nan n n image) \/
         exists x5 image6, shows x5 n n image5 /\
           shows_scaled (fun i j => x5 i j + nth (i * n + j) e 0) n n image6 /\
           ((all_nan n n image6 /\ all_nan n n image) \/
            exists x6, shows x6 n n image6 /\
              shows (fun i j => Rmin 1 (Rmax 0 (x6 i j + nth (i * n + j) z 0))) n n image)).
Proof.
  intros rng Hat Hm Hg Hu. destruct size as [Hsz Hn]. unfold generate_stem_image. rewrite Hsz.
  destruct (clean_image_nan g f (ip_intensity_exponent params) n lengths atomic_numbers Hn (proj1 view) (proj2 view))
    as (image & Eclean & Hh & Hw & _ & H1). rewrite Eclean.
  destruct (H1 Hat) as [Hp (i1 & j1 & Hi1 & Hj1 & E1)]. clear H1.
  assert (Hx : exists x, shows x n n image /\ (forall i j, (i < n)%nat -> (j < n)%nat -> 0 <= x i j <= 1) /\ x i1 j1 = 1).
  { exists (fun i j => match rs_pixel image i j with Some v => v | None => 0 end). split; [|split].
    - split; [assumption|]; split; [assumption|]. intros i j Hi Hj. destruct (Hp i j Hi Hj) as (x & -> & _). reflexivity.
    - intros i j Hi Hj. destruct (Hp i j Hi Hj) as (x & -> & H). assumption.
    - rewrite E1. reflexivity. }
  destruct Hx as (x & Hx & Hx01 & Hx1).
  destruct (blur_unit n image x i1 j1 (ip_blur_amount params) Hn Hx Hx01 Hi1 Hj1 Hx1) as (y & Hy & Hy01).
  destruct (poisson_counts poisson y n n _ (ip_poisson_rate_multiplier params) rng Hn Hn Hy) as (counts & g1 & image1 & -> & Dc & Hc).
  { intros i j Hi Hj. specialize (Hy01 i j Hi Hj). nra. }
  pose proof (scaled_unit _ _ _ _ Hn Hn Hc) as Hc'.
  assert (Hsh1 : rs_height image1 = n /\ rs_width image1 = n) by (destruct Hc as (A & B & _); auto).
  apply unit_image_mixed in Hc'.
  destruct (jitter_mixed image1 (ip_jitter_rate params) g1 Hc') as (Hj & Hjh & Hjw).
  destruct (jitter_rolls poisson image1 (ip_jitter_rate params) g1) as (rolls & g2 & image2 & Ej & Dr & _ & _ & Hroll).
  rewrite Ej in *. cbn [fst] in Hj, Hjh, Hjw.
  rewrite (proj1 Hsh1) in Hjh, Dr, Hroll. rewrite (proj2 Hsh1) in Hjw, Hroll.
  destruct (salt_and_pepper s image2 (ip_salt_and_pepper_amount params) g2 Hj) as (flips & salts & g3 & g4 & image3 & -> & Df & Ds & Hh3 & Hw3 & H3).
  rewrite Hjh, Hjw in Df, Ds, H3.
  assert (Hmix3 : unit_or_nan image3).
  { intros i j Hi Hj'. rewrite Hh3, Hjh in Hi. rewrite Hw3, Hjw in Hj'. destruct (H3 i j Hi Hj') as (C1 & C2 & C3).
    set (k := (i * n + j)%nat) in *.
    destruct (Rle_lt_dec (nth k flips 0) (ip_salt_and_pepper_amount params)) as [L | L].
    - destruct (Rle_lt_dec (nth k salts 0) (1 / 2)) as [L' | L'].
      + right. exists 1. split; [auto|lra].
      + right. exists 0. split; [auto|lra].
    - rewrite C1 by assumption. apply Hj; rewrite ?Hjh, ?Hjw; assumption. }
  rewrite Hjh in Hh3. rewrite Hjw in Hw3.
  destruct (contrast_mixed image3 _ Hmix3 Hg) as (image4 & E4 & Hh4 & Hw4 & Hmix4). rewrite E4.
  rewrite Hh3 in Hh4. rewrite Hw3 in Hw4.
  destruct (uniform_stage image4 (ip_uniform_noise_scale params) g4 Hmix4 Hu n Hn Hh4 Hw4) as (u & g5 & image5 & -> & Du & Hu5 & H5).
  pose proof (unit_image_mixed _ _ _ Hu5) as Hmix5.
  assert (Hsh5 : rs_height image5 = n /\ rs_width image5 = n).
  { destruct Hu5 as [(A & B & _) | (z & (A & B & _) & _)]; auto. }
  destruct (exponential_stage image5 (ip_exponential_lambda params) g5 Hmix5 n Hn (proj1 Hsh5) (proj2 Hsh5)) as (e & g6 & image6 & -> & De & Hu6 & H6).
  destruct (gaussian_stage image6 (ip_gaussian_variance params) g6 n Hu6) as (z & g7 & image7 & -> & Dz & H7).
  exists image, y, counts, g1, rolls, g2, flips, g3, salts, g4, u, g5, e, g6, z, g7, image7.
  do 9 (split; [first [assumption | reflexivity]|]). split; [reflexivity|].
  intros brightest Hb Hle (ib & jb & Hib & Hjb & Eb).
  destruct Hc as (_ & _ & [Hc | (i0 & j0 & Hi0 & Hj0 & Hp0 & Hc)]).
  { exfalso. destruct (Hc ib jb Hib Hjb) as [E _]. cbv beta in E. lra. }
  assert (Eb0 : INR (nth (i0 * n + j0) counts 0%nat) = brightest).
  { destruct (Hc ib jb Hib Hjb) as [L _]. cbv beta in L. specialize (Hle i0 j0 Hi0 Hj0). lra. }
  assert (Hnum1 : forall i j, (i < n)%nat -> (j < n)%nat ->
    rs_pixel image1 i j = Some (INR (nth (i * n + j) counts 0%nat) / brightest)).
  { intros i j Hi Hj'. destruct (Hc i j Hi Hj') as [_ E]. rewrite Eb0 in E. exact E. }
  assert (Hback : forall i j', (i < n)%nat -> (j' < n)%nat -> exists j, (j < n)%nat /\ j' = ((j + nth i rolls 0) mod n)%nat).
  { intros i j' Hi Hj'. set (k := nth i rolls 0%nat). exists ((j' + (n - k mod n)) mod n)%nat.
    split; [apply Nat.mod_upper_bound; lia|].
    pose proof (Nat.mod_upper_bound k n ltac:(lia)). rewrite Nat.add_mod_idemp_l by lia.
    rewrite (Nat.div_mod k n) at 2 by lia.
    replace (j' + (n - k mod n) + (n * (k / n) + k mod n))%nat with (j' + (k / n + 1) * n)%nat by nia.
    rewrite Nat.mod_add by lia. symmetry; apply Nat.mod_small; assumption. }
  assert (Hmix3' : forall i j, (i < n)%nat -> (j < n)%nat -> exists v, rs_pixel image3 i j = Some v).
  { intros i j' Hi Hj'. destruct (Hback i j' Hi Hj') as (j & Hjn & ->). destruct (H3 i _ Hi Hj') as (C1 & C2 & C3).
    match type of C1 with _ < nth ?k' _ _ -> _ => set (k := k') in * end.
    destruct (Rle_lt_dec (nth k flips 0) (ip_salt_and_pepper_amount params)) as [L | L].
    - destruct (Rle_lt_dec (nth k salts 0) (1 / 2)) as [L' | L']; eauto.
    - rewrite C1 by assumption. rewrite Hroll, Hnum1 by assumption. eauto. }
  assert (Hpow : forall i j v, (i < n)%nat -> (j < n)%nat -> rs_pixel image3 i j = Some v ->
    rs_pixel image4 i j = Some (power v (ip_contrast_gamma params))).
  { intros i j v Hi Hj' Ev. unfold apply_contrast in E4. destruct (_ || _)%bool; [discriminate|].
    injection E4 as <-. cbn. rewrite Ev. reflexivity. }
  destruct H5 as [(Hnan & _) | (x4 & Hx4 & Hx401 & Hs5)].
  { exfalso. destruct Hnan as (i & j & Hi & Hj' & E). rewrite Hh4 in Hi. rewrite Hw4 in Hj'.
    destruct (Hmix3' i j Hi Hj') as (v & Ev). rewrite (Hpow i j v Hi Hj' Ev) in E. discriminate. }
  destruct Hx4 as (_ & _ & Hx4).
  assert (Hval : forall i j v, (i < n)%nat -> (j < n)%nat -> rs_pixel image3 i j = Some v -> x4 i j = power v (ip_contrast_gamma params)).
  { intros i j v Hi Hj' Ev. pose proof (Hpow i j v Hi Hj' Ev) as E. rewrite Hx4 in E by assumption. injection E as E. exact E. }
  exists x4, image5. split; [|split; [exact Hs5|]].
  - intros i j Hi Hjn. set (j' := ((j + nth i rolls 0) mod n)%nat). set (k := (i * n + j')%nat). set (c := INR (nth (i * n + j) counts 0%nat)). assert (Hj' : (j' < n)%nat) by (apply Nat.mod_upper_bound; lia).
    destruct (H3 i j' Hi Hj') as (C1 & C2 & C3). fold k in C1, C2, C3. split; [|split].
    + intro L. specialize (C1 L). unfold j' in C1. rewrite Hroll, Hnum1 in C1 by assumption. fold c in C1.
      rewrite (Hval i j' _ Hi Hj' C1). unfold power. split.
      * intros ->. unfold Rdiv. rewrite Rmult_0_l, (proj2 (Reqb_true 0 0) eq_refl).
        destruct (Reqb (ip_contrast_gamma params) 0) eqn:E; [apply Reqb_true in E; lra|reflexivity].
      * intro Hpos. assert (0 < c / brightest) by (apply Rdiv_lt_0_compat; assumption).
        destruct (Reqb (c / brightest) 0) eqn:E; [apply Reqb_true in E; lra|]. reflexivity.
    + intros L1 L2. rewrite (Hval i j' _ Hi Hj' (C2 L1 L2)). unfold power.
      destruct (Reqb 1 0) eqn:E; [apply Reqb_true in E; lra|]. unfold Rpower. rewrite ln_1, Rmult_0_r, exp_0. reflexivity.
    + intros L1 L2. rewrite (Hval i j' _ Hi Hj' (C3 L1 L2)). unfold power.
      rewrite (proj2 (Reqb_true 0 0) eq_refl). destruct (Reqb (ip_contrast_gamma params) 0) eqn:E; [apply Reqb_true in E; lra|reflexivity].
  - destruct H6 as [(Hn5 & Hn6) | (x5 & Hx5 & _ & Hs6)].
    + left. assert (A5 : all_nan n n image5).
      { destruct Hu5 as [A | (w & (A & B & Hw') & _)]; [assumption|]. exfalso.
        destruct Hn5 as (i & j & Hi & Hj' & E). rewrite A in Hi. rewrite B in Hj'. rewrite Hw' in E by assumption. discriminate. }
      split; [exact A5|]. destruct H7 as [(_ & A) | (x6 & (_ & _ & B) & _)]; [exact A|].
      exfalso. destruct Hn6 as (_ & _ & C). specialize (B 0%nat 0%nat Hn Hn). rewrite C in B by assumption. discriminate.
    + right. exists x5, image6. split; [exact Hx5|]; split; [exact Hs6|].
      destruct H7 as [H7 | (x6 & H7)]; [left; exact H7|right; exists x6; exact H7].
Qed.
End Whole.
Print Assumptions stem_image_no_atoms.
Print Assumptions stem_image.
Print Assumptions stem_image_stages.

(** The parameters that the two samplers draw can be used: whatever they are, a
    view with an atom is imaged. *)
Theorem sampled_parameters_image : forall (G : Type) (s : sampler G) (poisson : R -> G -> nat * G)
    (equalize : frame -> R -> res frame) (g : grid) (f : fov) (n : nat) (rng rng' rng'' : G) (params : image_parameters),
  sampler_ok s -> (0 < n)%nat -> length (positions g) = length (numbers g) -> Forall (fun z => 0 < z)%Z (numbers g) ->
  0 < width f < 10 ^ 14 /\ 0 < height f < 10 ^ 14 ->
  (exists p, In p (positions g) /\ 0 <= px p <= 1 /\ 0 <= py p <= 1) ->
  sample_image_parameters s n rng = (params, rng') \/ sample_noisy_image_parameters s n rng = (params, rng') ->
  exists image g', generate_stem_image s poisson equalize g f params rng'' 0 = (equalize image (1 / 100), g') /\
    (all_nan n n image \/
     exists x, shows x n n image /\ forall i j, (i < n)%nat -> (j < n)%nat -> 0 <= x i j <= 1).
Proof.
  intros G s poisson equalize g f n rng rng' rng'' params Hs Hn Hl Hz Hf Hat H.
  assert (HU : forall lo hi g, lo <= hi -> lo <= fst (s_uniform s lo hi g) <= hi) by apply Hs.
  assert (HE : forall scale g, 0 <= fst (s_exponential s scale g)) by apply Hs.
  assert (Hok : ip_image_size params = n /\ 0 <= ip_poisson_rate_multiplier params /\ 0 < ip_contrast_gamma params /\ 0 <= ip_uniform_noise_scale params).
  { destruct H as [H | H]; [unfold sample_image_parameters in H | unfold sample_noisy_image_parameters in H];
    repeat match type of H with
           | (let '(_, _) := s_uniform s ?lo ?hi ?g0 in _) = _ =>
               let K := fresh "K" in pose proof (HU lo hi g0 ltac:(lra)) as K; destruct (s_uniform s lo hi g0) as [? ?]; cbn [fst] in K
           | (let '(_, _) := s_exponential s ?sc ?g0 in _) = _ =>
               let K := fresh "K" in pose proof (HE sc g0) as K; destruct (s_exponential s sc g0) as [? ?]; cbn [fst] in K
           end; injection H as <- <-; cbn; repeat split; lra. }
  destruct Hok as (H1 & H2 & H3 & H4).
  apply (stem_image s poisson Hs equalize g f params n Hl Hz Hf (conj H1 Hn) rng'' Hat H2 H3 H4).
Qed.
Print Assumptions sampled_parameters_image.

(** A silicon and a carbon atom, drawn with the parameters that this generator
    gives, and with a count of one in every pixel. *)
Definition ex_poisson (rate : R) (g : nat) : nat * nat := (1%nat, S g).
Example stem_image_nonvacuous : exists image g',
  generate_stem_image (ex_sampler 1) ex_poisson (fun image _ => Ok image) ex_mask_grid ex_mask_view
    (fst (sample_image_parameters (ex_sampler 1) 8 0%nat)) 9%nat 0 = (Ok image, g') /\ rs_height image = 8%nat /\
  length (positions ex_mask_grid) = 2%nat.
Proof.
  destruct (sampled_parameters_image nat (ex_sampler 1) ex_poisson (fun image _ => Ok image) ex_mask_grid ex_mask_view 8 0%nat 9%nat 9%nat
    (fst (sample_image_parameters (ex_sampler 1) 8 0%nat))) as (image & g' & E & H).
  - apply ex_sampler_ok; lra.
  - lia.
  - reflexivity.
  - repeat constructor.
  - unfold width, height; cbn; lra.
  - exists (mkpt (1 / 16) (1 / 16)). cbn. split; [auto|lra].
  - left. reflexivity.
  - exists image, g'. split; [exact E|]. split; [|reflexivity]. destruct H as [(A & _) | (x & (A & _) & _)]; exact A.
Qed.

(** Two pixels, of values 1/4 and 1/2, meet the hypotheses of the stages; the
    same with a NaN, or darkened below zero, those of the theorems on errors. *)
Definition ex_values (i j : nat) : R := if (j =? 0)%nat then 1 / 4 else 1 / 2.
Example noise_stages_nonvacuous :
  shows ex_values 1 2 (mkraster 1 2 (fun i j => Some (ex_values i j))) /\
  (forall i j, 0 <= ex_values i j <= 1) /\ ex_values 0 0 <> ex_values 0 1 /\
  (exists row col, (forall i, mirrored 1 i (row i)) /\ (forall j, mirrored 2 j (col j)) /\ col 2%Z = 1%nat /\ col (-1)%Z = 0%nat) /\
  some_nan (mkraster 1 2 (fun i j => if (j =? 0)%nat then None else Some 1)) /\
  (let x := fun i j => ex_values i j - 1 / 3 in
   shows x 1 2 (mkraster 1 2 (fun i j => Some (x i j))) /\ x 0%nat 0%nat < 0 /\ 0 < x 0%nat 1%nat).
Proof.
  unfold ex_values. split; [repeat split|]. split; [intros i j; destruct (j =? 0)%nat; lra|]. split; [cbn; lra|]. split; [|split].
  - exists (fun _ => 0%nat), (fun j => if ((j mod 4 =? 1) || (j mod 4 =? 2))%Z then 1%nat else 0%nat). split; [|split; [|split; reflexivity]].
    + intros i. split; [lia|]. exists (i / 2)%Z. pose proof (Z.div_mod i 2 ltac:(lia)). pose proof (Z.mod_pos_bound i 2 ltac:(lia)). lia.
    + intros j. pose proof (Z.div_mod j 4 ltac:(lia)). pose proof (Z.mod_pos_bound j 4 ltac:(lia)).
      assert (j mod 4 = 0 \/ j mod 4 = 1 \/ j mod 4 = 2 \/ j mod 4 = 3)%Z as D by lia.
      split; [destruct ((j mod 4 =? 1) || (j mod 4 =? 2))%Z; lia|]. exists (j / 4)%Z.
      destruct D as [E|[E|[E|E]]]; rewrite E in *; cbn [Z.eqb Pos.eqb orb]; lia.
  - exists 0%nat, 0%nat. cbn. auto.
  - cbn. repeat split; cbn; lra.
Qed.
