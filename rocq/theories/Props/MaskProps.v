(** The semantic mask of a grid of atoms (imaging.generate_grid_mask). *)
From Coq Require Import Reals ZArith List Bool Lia Lra Arith Permutation.
From Verif Require Import Base.Prelude Model.Constants Model.MicroscopeUtils Model.ImageAligner Model.Imaging
  Spec.Grids Spec.Views Spec.Imaging Proofs.BaseFacts Proofs.FovFacts Proofs.AlignFacts.
Import ListNotations.
Open Scope R_scope.

Lemma middle_eq lo hi n i : (0 < n)%nat -> middle lo hi n i = lo + (INR i + 1 / 2) * (hi - lo) / INR n.
Proof.
  intro H; unfold middle, linspace; rewrite S_INR; apply lt_INR in H; cbn [INR] in H; field; lra.
Qed.
Lemma mask_radius_eq e z : (0 < z)%Z -> mask_radius e z = disc_area_over_pi e z.
Proof.
  intro H; unfold mask_radius, disc_area_over_pi, power, CARBON.
  assert (0 < IZR z) by (apply IZR_lt; lia).
  assert (0 < IZR z / 6) by lra.
  destruct (Reqb (IZR z / 6) 0) eqn:E; [apply Reqb_true in E; lra|]; lra.
Qed.

Definition oblong_atoms {A B} (l : list A) (m : B) : res B := match l with [] => Ok m | _ => Raise IndexError end.
Lemma fold_raise {A B} (f : res A -> B -> res A) e l :
  (forall b, f (Raise e) b = Raise e) -> fold_left f l (Raise e) = Raise e.
Proof. intro H; induction l; cbn; [reflexivity|]; rewrite H; assumption. Qed.
Lemma fold_ok {A B} (f : A -> B -> A) (F : res A -> B -> res A) l m :
  (forall m b, F (Ok m) b = Ok (f m b)) -> fold_left F l (Ok m) = Ok (fold_left f l m).
Proof. intro H; revert m; induction l; intro m; cbn; [reflexivity|]; rewrite H; auto. Qed.

Section Drawing.
Variable e : R.
Variables xx yy : nat -> nat -> R.
Let draw (mask : raster Z) (atom : pt * Z) := draw_atom (mask_radius e (snd atom)) xx yy mask atom.
Lemma drawn_shape l m : rs_height (fold_left draw l m) = rs_height m /\ rs_width (fold_left draw l m) = rs_width m.
Proof. revert m; induction l as [|[p z] l IH]; intro m; cbn [fold_left]; [auto|]. destruct (IH (draw m (p, z))) as [H1 H2]; rewrite H1, H2; auto. Qed.
Lemma drawn l m i j (P : pt * Z -> Prop) :
  (forall p z, In (p, z) l -> (P (p, z) <-> (xx i j - px p) ^ 2 + (yy i j - py p) ^ 2 < mask_radius e z)) ->
  exists o, last_such P l o /\
    rs_pixel (fold_left draw l m) i j = match o with Some a => (snd a mod 256)%Z | None => rs_pixel m i j end.
Proof.
  revert m; induction l as [|[p z] l IH] using rev_ind; intros m HP.
  - exists None; cbn; auto.
  - rewrite fold_left_app; cbn [fold_left].
    unfold draw at 1, draw_atom; cbn [rs_pixel snd].
    assert (Hp : P (p, z) <-> (xx i j - px p) ^ 2 + (yy i j - py p) ^ 2 < mask_radius e z)
      by (apply HP, in_or_app; cbn; auto).
    destruct (Rltb _ _) eqn:E.
    + apply Rltb_true in E. exists (Some (p, z)); cbn; split; [|reflexivity].
      exists l, []; split; [reflexivity|]; split; [tauto|constructor].
    + apply Rltb_false in E.
      assert (HnP : ~ P (p, z)) by (rewrite Hp; lra).
      destruct (IH m) as (o & Ho & Hv); [intros; apply HP, in_or_app; auto|].
      exists o; split; [|assumption].
      destruct o as [a|]; cbn in *.
      * destruct Ho as (b & c & -> & Ha & Hc); exists b, (c ++ [(p, z)]).
        rewrite <- app_assoc; split; [reflexivity|]; split; [assumption|]; apply Forall_app; auto.
      * apply Forall_app; auto.
Qed.
End Drawing.

(** The mask of a square image.  Each pixel holds the atomic number of the last
    atom whose disc the centre of the pixel is in, and zero if there is none. *)
Theorem mask_pixels : forall (g : grid) (f : fov) (e : R) (n : nat),
  Forall (fun z => 0 < z < 256)%Z (numbers g) ->
  exists mask, generate_grid_mask g f e (n, n) = Ok mask /\ rs_height mask = n /\ rs_width mask = n /\
    forall i j, (i < n)%nat -> (j < n)%nat ->
      exists o, last_such (covers e f (pixel_centre f n n i j)) (atoms_of g) o /\
        rs_pixel mask i j = match o with Some a => snd a | None => 0%Z end.
Proof.
  intros g f e n Hz.
  unfold generate_grid_mask, grid_to_material, grid_map_pos; cbn [positions numbers]. rewrite Nat.eqb_refl.
  set (xx := fun i j : nat => middle (px (lower_left f)) (px (upper_right f)) n j).
  set (yy := fun i j : nat => middle (py (lower_left f)) (py (upper_right f)) n i).
  set (l := combine (map (to_material_pt f) (positions g)) (numbers g)).
  rewrite fold_ok with (f := fun m a => draw_atom (mask_radius e (snd a)) xx yy m a) by reflexivity.
  set (m := fold_left _ l _).
  destruct (drawn_shape e xx yy l (mkraster n n (fun _ _ => 0%Z))) as [Hh Hw]. fold m in Hh, Hw; cbn in Hh, Hw.
  exists (flipud m); split; [reflexivity|]; cbn [flipud rs_height rs_width]; split; [assumption|]; split; [assumption|].
  intros i j Hi Hj; cbn [flipud rs_pixel]; rewrite Hh.
  set (here := pixel_centre f n n i j).
  assert (HC : combine (positions g) (numbers g) = atoms_of g) by reflexivity.
  assert (Hl : l = map (fun a => (at_relative f (fst a), snd a)) (atoms_of g)).
  { unfold l, atoms_of; clear. generalize (numbers g); induction (positions g) as [|p ps IH]; intros [|z zs]; cbn; try reflexivity.
    rewrite IH, to_material_pt_eq; reflexivity. }
  destruct (drawn e xx yy l (mkraster n n (fun _ _ => 0%Z)) (n - 1 - i) j
              (fun a => (px here - px (fst a)) ^ 2 + (py here - py (fst a)) ^ 2 < disc_area_over_pi e (snd a)))
    as (o & Ho & Hv).
  { intros p z Hin; cbn [fst snd].
    assert (0 < z)%Z.
    { apply in_combine_r in Hin. rewrite Forall_forall in Hz; apply Hz in Hin; lia. }
    rewrite mask_radius_eq by assumption.
    unfold xx, yy, here, pixel_centre; cbn [px py].
    rewrite !middle_eq by lia.
    replace (INR (n - 1 - i)) with (INR n - 1 - INR i) by (rewrite !minus_INR by lia; reflexivity).
    assert (0 < INR n) by (apply lt_0_INR; lia).
    replace (py (lower_left f) + (INR n - 1 - INR i + 1 / 2) * (py (upper_right f) - py (lower_left f)) / INR n)
      with (py (upper_right f) - (INR i + 1 / 2) * (py (upper_right f) - py (lower_left f)) / INR n) by (field; lra).
    tauto. }
  fold m in Hv; cbn [rs_pixel] in Hv.
  rewrite Hl in Ho.
  destruct o as [[p z]|].
  - destruct Ho as (b & c & Hb & Hp & Hc).
    apply map_eq_app in Hb; destruct Hb as (b' & c' & HA & <- & Hc').
    destruct c' as [|a c']; [discriminate|]; cbn in Hc'. inversion Hc' as [[H1 H2 H3]].
    exists (Some a); cbn; split.
    + exists b', c'; split; [assumption|]; split; [unfold covers; rewrite H1, H2; exact Hp|].
      rewrite <- H3 in Hc; rewrite Forall_map in Hc; exact Hc.
    + rewrite Hv; cbn [snd]. rewrite <- H2; apply Z.mod_small.
      rewrite Forall_forall in Hz. assert (In (snd a) (numbers g)).
      { assert (In a (atoms_of g)) by (rewrite HA; apply in_or_app; cbn; auto).
        destruct a as [q y]; apply in_combine_r in H; exact H. }
      apply Hz in H; lia.
  - exists None; cbn in *; rewrite Forall_map in Ho; auto.
Qed.

Print Assumptions mask_pixels.
(** Images that are not square.  Any atom makes the call fail; the mask of no
    atoms has its sides swapped. *)
Theorem mask_oblong : forall (g : grid) (f : fov) (e : R) (w h : nat), w <> h ->
  (atoms_of g <> [] -> generate_grid_mask g f e (w, h) = Raise IndexError) /\
  (atoms_of g = [] -> exists mask, generate_grid_mask g f e (w, h) = Ok mask /\
     rs_height mask = w /\ rs_width mask = h /\ forall i j, rs_pixel mask i j = 0%Z).
Proof.
  intros g f e w h Hn. apply Nat.eqb_neq in Hn.
  unfold generate_grid_mask, grid_to_material, grid_map_pos, atoms_of; cbn [positions numbers]. rewrite Hn.
  destruct (positions g) as [|p ps], (numbers g) as [|z zs]; cbn; (split; intro H; try congruence);
    try (eexists; split; [reflexivity|]; cbn; auto).
  rewrite fold_raise; reflexivity.
Qed.
Print Assumptions mask_oblong.

(** ** Graphene *)

Lemma disc_carbon e : disc_area_over_pi e 6 = 1 / 10.
Proof.
  unfold disc_area_over_pi. replace (6 / 6) with 1 by field. rewrite Rpower_1_l || (unfold Rpower; rewrite ln_1, Rmult_0_r, exp_0); reflexivity.
Qed.
Lemma disc_bound e z : 0 <= e <= 17 / 10 -> z = 6%Z \/ z = 14%Z -> disc_area_over_pi e z < 5041 / 10000.
Proof.
  intros He [-> | ->]; [rewrite disc_carbon; lra|].
  unfold disc_area_over_pi.
  assert (H : Rpower (14 / 6) e <= Rpower (14 / 6) (17 / 10)) by (apply Rle_Rpower; lra).
  enough (Rpower (14 / 6) (17 / 10) < 5041 / 1000) by lra.
  destruct (Rlt_or_le (Rpower (14 / 6) (17 / 10)) (5041 / 1000)) as [L | L]; [assumption|exfalso].
  assert (P : (5041 / 1000) ^ 10 <= Rpower (14 / 6) (17 / 10) ^ 10) by (apply pow_incr; lra).
  rewrite <- (Rpower_pow 10 (Rpower (14 / 6) (17 / 10))) in P by apply exp_pos.
  rewrite Rpower_mult in P.
  replace (17 / 10 * INR 10) with (INR 17) in P by (rewrite !INR_IZR_INZ; cbn; lra).
  rewrite Rpower_pow in P by lra. lra.
Qed.

Lemma covers_near e f here a : 0 <= e <= 17 / 10 -> snd a = 6%Z \/ snd a = 14%Z ->
  covers e f here a -> pdist here (at_relative f (fst a)) < 71 / 100.
Proof.
  intros He Hz H; unfold covers in H. pose proof (disc_bound e (snd a) He Hz).
  unfold pdist, pnorm. replace (71 / 100) with (sqrt (5041 / 10000)).
  - apply sqrt_lt_1_alt; split; [unfold psq; nra|]. unfold psq, psub; cbn [px py]. nra.
  - replace (5041 / 10000) with ((71 / 100) * (71 / 100)) by field. apply sqrt_square; lra.
Qed.

Lemma apart_covers e f here l a b before mid after : 0 <= e <= 17 / 10 -> apart f l ->
  l = before ++ a :: mid ++ b :: after -> covers e f here a -> covers e f here b -> False.
Proof.
  intros He [Hz Hd] -> Ha Hb.
  rewrite Forall_forall in Hz.
  apply covers_near in Ha; [|assumption|apply Hz, in_or_app; cbn; auto].
  apply covers_near in Hb; [|assumption|apply Hz, in_or_app; right; right; apply in_or_app; cbn; auto].
  assert (H : 142 / 100 <= pdist (at_relative f (fst a)) (at_relative f (fst b))).
  { clear - Hd; induction before as [|x before IH]; cbn in Hd; inversion Hd as [|? ? H1 H2]; subst.
    - rewrite Forall_forall in H1; apply H1, in_or_app; cbn; auto.
    - auto. }
  pose proof (pdist_triangle (at_relative f (fst a)) here (at_relative f (fst b))) as T.
  rewrite (pdist_sym _ here) in T. lra.
Qed.

(** For graphene the mask is exact: no two discs overlap, so that the pixels in
    the disc of an atom hold its atomic number and the others are zero.  The
    order of the atoms does not matter. *)
Theorem mask_graphene : forall (g : grid) (f : fov) (e : R) (n : nat),
  length (positions g) = length (numbers g) -> apart f (atoms_of g) -> 0 <= e <= 17 / 10 ->
  exists mask, generate_grid_mask g f e (n, n) = Ok mask /\
    forall i j, (i < n)%nat -> (j < n)%nat ->
      (forall a, In a (atoms_of g) -> covers e f (pixel_centre f n n i j) a -> rs_pixel mask i j = snd a) /\
      ((forall a, In a (atoms_of g) -> ~ covers e f (pixel_centre f n n i j) a) -> rs_pixel mask i j = 0%Z).
Proof.
  intros g f e n Hlen Hap He.
  assert (Hz : Forall (fun z => 0 < z < 256)%Z (numbers g)).
  { destruct Hap as [Hz _]. rewrite Forall_forall in *; intros z Hin.
    destruct (In_nth_error _ _ Hin) as [k Hk].
    assert (Hk' : (k < length (positions g))%nat) by (rewrite Hlen; apply nth_error_Some; congruence).
    apply nth_error_Some in Hk'. destruct (nth_error (positions g) k) as [p|] eqn:Ep; [|congruence].
    assert (In (p, z) (atoms_of g)).
    { unfold atoms_of; clear - Hk Ep. revert Hk Ep; generalize (numbers g), (positions g).
      induction k as [|k IH]; intros [|y ys] [|q qs]; cbn; intros; try discriminate.
      - left; congruence.
      - right; auto. }
    destruct (Hz _ H); cbn in *; lia. }
  destruct (mask_pixels g f e n Hz) as (mask & Hm & Hh & Hw & Hp).
  exists mask; split; [assumption|]. intros i j Hi Hj.
  destruct (Hp i j Hi Hj) as (o & Ho & Hv). rewrite Hv.
  split.
  - intros a Ha Hc. destruct o as [b|].
    + destruct Ho as (be & af & Hl & Hb & Haf).
      rewrite Hl in Ha; apply in_app_or in Ha; destruct Ha as [Ha | [-> | Ha]]; [|reflexivity|].
      * exfalso. destruct (in_split _ _ Ha) as (x & y & ->).
        rewrite <- app_assoc in Hl; cbn in Hl.
        apply (apart_covers e f _ _ a b x y af He Hap Hl Hc Hb).
      * exfalso. rewrite Forall_forall in Haf; apply (Haf a Ha Hc).
    + exfalso. cbn in Ho; rewrite Forall_forall in Ho; apply (Ho a Ha Hc).
  - intro H. destruct o as [b|]; [exfalso|reflexivity].
    destruct Ho as (be & af & Hl & Hb & Haf). apply (H b); [rewrite Hl; apply in_or_app; cbn; auto|assumption].
Qed.
Print Assumptions mask_graphene.

(** a view of 4 by 4 Angstroms with a silicon atom and a carbon atom 1.5
    Angstroms apart, and the mask of 8 by 8 pixels *)
Definition ex_mask_view : fov := mkfov (mkpt 0 0) (mkpt 4 4).
Definition ex_mask_grid : grid := mkgrid [mkpt (1 / 16) (1 / 16); mkpt (7 / 16) (1 / 16)] [14%Z; 6%Z].
Example mask_nonvacuous :
  apart ex_mask_view (atoms_of ex_mask_grid) /\
  exists mask, generate_grid_mask ex_mask_grid ex_mask_view default_intensity_exponent (8, 8)%nat = Ok mask /\
    rs_pixel mask 7 0 = 14%Z /\ rs_pixel mask 7 3 = 6%Z /\ rs_pixel mask 0 0 = 0%Z.
Proof.
  assert (Hap : apart ex_mask_view (atoms_of ex_mask_grid)).
  { split.
    - repeat (apply Forall_cons; [cbn; auto|]); apply Forall_nil.
    - repeat constructor. cbn -[pdist]. unfold pdist, pnorm, psq, psub, at_relative; cbn.
      replace (_ + _) with ((3 / 2) * (3 / 2)) by field. rewrite sqrt_square; lra. }
  split; [assumption|].
  destruct (mask_graphene ex_mask_grid ex_mask_view default_intensity_exponent 8 eq_refl Hap) as (mask & Hm & Hp).
  { unfold default_intensity_exponent; lra. }
  exists mask; split; [assumption|].
  assert (D : 1 / 10 < disc_area_over_pi default_intensity_exponent 14).
  { unfold disc_area_over_pi. enough (1 < Rpower (14 / 6) default_intensity_exponent) by lra.
    rewrite <- (Rpower_O (14 / 6)) by lra. apply Rpower_lt; unfold default_intensity_exponent; lra. }
  split; [|split].
  - apply (proj1 (Hp 7 0 ltac:(lia) ltac:(lia))%nat (mkpt (1 / 16) (1 / 16), 14%Z)); [cbn; auto|].
    unfold covers; cbn [fst snd]. eapply Rle_lt_trans; [|exact D].
    unfold pixel_centre, at_relative; cbn. lra.
  - apply (proj1 (Hp 7 3 ltac:(lia) ltac:(lia))%nat (mkpt (7 / 16) (1 / 16), 6%Z)); [cbn; auto|].
    unfold covers; cbn [fst snd]. rewrite disc_carbon.
    unfold pixel_centre, at_relative; cbn. lra.
  - apply (proj2 (Hp 0 0 ltac:(lia) ltac:(lia))%nat).
    pose proof (disc_bound default_intensity_exponent 14 ltac:(unfold default_intensity_exponent; lra) ltac:(auto)) as B.
    intros a [<- | [<- | []]]; unfold covers; cbn [fst snd]; try rewrite disc_carbon;
      unfold pixel_centre, at_relative; cbn; lra.
Qed.
