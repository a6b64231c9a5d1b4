(** C71: the canonical orientation of beam and neighbours *)
From Coq Require Import Reals ZArith List Bool Lia Lra Arith Permutation.
From Flocq Require Import Core.
From Verif Require Import Base.Prelude Base.Rounding Model.Geometry Model.MicroscopeUtils Model.Alignment Model.DataUtils
  Spec.Orienting Proofs.BaseFacts Proofs.GeometryFacts Proofs.AlignFacts.
Import ListNotations.
Open Scope R_scope.

(** * angles modulo a full turn *)
Lemma rotate_turnsZ p t k : rotate p (t + 2 * PI * IZR k) = rotate p t.
Proof.
  assert (G : forall n t, rotate p (t + 2 * PI * INR n) = rotate p t).
  { induction n as [|n IH]; intros t'; [cbn; f_equal; lra|]. rewrite S_INR.
    replace (t' + 2 * PI * (INR n + 1)) with (t' + 2 * PI * INR n + 2 * PI) by ring. rewrite rotate_period. auto. }
  destruct (Z.le_ge_cases 0 k) as [H|H].
  - rewrite <- (Z2Nat.id k), <- INR_IZR_INZ by auto. apply G.
  - rewrite <- (G (Z.to_nat (- k)) (t + 2 * PI * IZR k)). f_equal. rewrite INR_IZR_INZ, Z2Nat.id, opp_IZR by lia. ring.
Qed.
Lemma polar_rotate r t : mkpt (r * cos t) (r * sin t) = rotate (mkpt r 0) t.
Proof. unfold rotate; cbn. apply pt_eq; cbn; ring. Qed.
Lemma pnorm_polar r t : 0 <= r -> pnorm (mkpt (r * cos t) (r * sin t)) = r.
Proof.
  intros H. rewrite polar_rotate, rotate_norm. unfold pnorm, psq. cbn. replace (r * r + 0 * 0) with (r * r) by ring. apply sqrt_square. auto.
Qed.
Lemma rmod_range x m : 0 < m -> 0 <= rmod x m < m.
Proof.
  intros H. unfold rmod. pose proof (Zfloor_lb (x / m)) as L. pose proof (Zfloor_ub (x / m)) as U.
  set (z := IZR (Zfloor (x / m))) in *.
  assert (Q : x = m * (x / m)) by (field; lra). set (y := x / m) in *. rewrite Q. nra.
Qed.
Lemma rmod_shift x m k : 0 < m -> rmod (x + m * IZR k) m = rmod x m.
Proof.
  intros H. unfold rmod. replace ((x + m * IZR k) / m) with (x / m + IZR k) by (field; lra).
  rewrite (Zfloor_imp (Zfloor (x / m) + k)); [rewrite plus_IZR; ring|].
  rewrite !plus_IZR. pose proof (Zfloor_lb (x / m)) as L. pose proof (Zfloor_ub (x / m)) as U. lra.
Qed.
Lemma rmod_turns x m : exists k, rmod x m = x + m * IZR k.
Proof. exists (- Zfloor (x / m))%Z. unfold rmod. rewrite opp_IZR. ring. Qed.

Lemma direction_polar p a : direction (rotate p a) (rmod (get_angle p + a) (2 * PI)).
Proof.
  pose proof PI_RGT_0. split; [apply rmod_range; lra|].
  destruct (rmod_turns (get_angle p + a) (2 * PI)) as (k & ->).
  rewrite polar_rotate, rotate_turnsZ, rotate_norm.
  rewrite (get_angle_polar p) at 1. rewrite polar_rotate, rotate_compose. reflexivity.
Qed.
(** the direction of a point is unique, unless it is the centre *)
Theorem direction_unique p s t : p <> pzero -> direction p s -> direction p t -> s = t.
Proof.
  intros N [Hs Es] [Ht Et]. assert (P : 0 < pnorm p).
  { destruct (Rle_lt_or_eq_dec 0 (pnorm p)) as [|Q]; [apply sqrt_pos|auto|]. symmetry in Q. apply pnorm_zero in Q. tauto. }
  assert (H : forall a, 0 <= a < 2 * PI -> exists k, - PI < a + 2 * PI * IZR k <= PI).
  { intros a Ha. destruct (Rle_dec a PI); [exists 0%Z|exists (-1)%Z]; lra. }
  destruct (H s Hs) as (k & Hk), (H t Ht) as (l & Hl). rewrite polar_rotate in Es, Et.
  assert (Q : mkpt (pnorm p * cos (s + 2 * PI * IZR k)) (pnorm p * sin (s + 2 * PI * IZR k)) =
              mkpt (pnorm p * cos (t + 2 * PI * IZR l)) (pnorm p * sin (t + 2 * PI * IZR l))).
  { rewrite !polar_rotate, !rotate_turnsZ. congruence. }
  injection Q as Q1 Q2. pose proof (polar_unique _ _ _ P Hk Hl Q1 Q2) as E.
  assert (s - t = 2 * PI * IZR (l - k)) by (rewrite minus_IZR; lra).
  assert (l - k = 0)%Z as Z0; [|rewrite Z0 in *; lra].
  pose proof PI_RGT_0. assert (-1 < l - k < 1)%Z; [|lia].
  split; apply lt_IZR; apply (Rmult_lt_reg_l (2 * PI)); lra.
Qed.
Lemma direction_zero_axis r : 0 <= r -> direction (mkpt r 0) 0.
Proof.
  intros H. pose proof PI_RGT_0. split; [lra|]. rewrite cos_0, sin_0.
  assert (pnorm (mkpt r 0) = r); [|rewrite H1; apply pt_eq; cbn; ring].
  unfold pnorm, psq. cbn. replace (r * r + 0 * 0) with (r * r) by ring. apply sqrt_square. auto.
Qed.
(** the angle of a turned point, up to full turns *)
Lemma angle_rotate p t : p <> pzero -> exists k, get_angle (rotate p t) = get_angle p + t + 2 * PI * IZR k.
Proof.
  intros N. pose proof (direction_polar p t) as D. pose proof (direction_polar (rotate p t) 0) as D'. rewrite rotate_0 in D'.
  assert (N' : rotate p t <> pzero).
  { intros E. apply N. rewrite <- (rotate_inv p t), E. apply rotate_zero_pt. }
  pose proof (direction_unique _ _ _ N' D D') as E.
  destruct (rmod_turns (get_angle p + t) (2 * PI)) as (k & Ek), (rmod_turns (get_angle (rotate p t) + 0) (2 * PI)) as (l & El).
  exists (k - l)%Z. rewrite minus_IZR. lra.
Qed.

(** * orders *)
Lemma asort_perm asort l : argsort_ok asort -> Permutation (asort l) (seq 0 (length l)).
Proof.
  intros A. apply NoDup_Permutation; [apply (asort_nodup _ A)|apply seq_NoDup|].
  intros i. rewrite (asort_indices _ A), in_seq. lia.
Qed.
Lemma asort_length asort l : argsort_ok asort -> length (asort l) = length l.
Proof. intros A. rewrite (Permutation_length (asort_perm _ l A)), seq_length. reflexivity. Qed.
Lemma reordered_ex {A} (l : list A) order : Forall (fun i => (i < length l)%nat) order -> exists l', take_idx l order = Some l' /\ reordered l order l'.
Proof.
  induction 1 as [|i order Hi F (l' & E & Q)]; [exists []; split; [reflexivity|constructor]|].
  destruct (nth_error l i) as [x|] eqn:Ex; [|apply nth_error_None in Ex; lia].
  exists (x :: l'). cbn. rewrite Ex, E. split; [reflexivity|constructor; auto].
Qed.
Lemma reordered_nth {A} (l : list A) order l' k i : reordered l order l' -> nth_error order k = Some i -> nth_error l' k = nth_error l i.
Proof. intros F. revert k. induction F as [|j x order l' E F IH]; intros [|k] H; cbn in *; try discriminate; [injection H as ->; auto|auto]. Qed.
Lemma reordered_length {A} (l : list A) order l' : reordered l order l' -> length l' = length order.
Proof. induction 1; cbn; congruence. Qed.

(** the inverse of a permutation, as predict computes it *)
Lemma asort_inverse asort order n k : argsort_ok asort -> Permutation order (seq 0 n) -> (k < n)%nat ->
  exists i, nth_error (asort (map INR order)) k = Some i /\ nth_error order i = Some k.
Proof.
  intros A P Hk. assert (L : length order = n) by (rewrite (Permutation_length P), seq_length; auto).
  assert (ND : NoDup order) by (apply (Permutation_NoDup (Permutation_sym P)), seq_NoDup).
  set (a := asort (map INR order)).
  assert (PA : Permutation a (seq 0 n)) by (unfold a; rewrite <- L, <- (map_length INR order); apply asort_perm; auto).
  assert (La : length a = n) by (rewrite (Permutation_length PA), seq_length; auto).
  (* the composite lists 0, 1, ... in increasing order *)
  destruct (reordered_ex order a) as (c & _ & C).
  { apply Forall_forall. intros i Hi. apply (Permutation_in _ PA), in_seq in Hi. lia. }
  assert (Lc : length c = n) by (rewrite (reordered_length _ _ _ C); auto).
  assert (Mono : forall x y, (x < y)%nat -> (y < n)%nat -> (nth x c 0 < nth y c 0)%nat).
  { intros x y Hxy Hy.
    destruct (nth_error a x) as [i|] eqn:Ei; [|apply nth_error_None in Ei; lia].
    destruct (nth_error a y) as [j|] eqn:Ej; [|apply nth_error_None in Ej; lia].
    pose proof (asort_sorted _ A _ _ _ _ _ Hxy Ei Ej) as S.
    assert (Hi : (i < n)%nat) by (apply nth_error_In, (Permutation_in _ PA), in_seq in Ei; lia).
    assert (Hj : (j < n)%nat) by (apply nth_error_In, (Permutation_in _ PA), in_seq in Ej; lia).
    assert (MI : forall v, nth v (map INR order) 0 = INR (nth v order 0%nat)) by (intros v; exact (map_nth INR order 0%nat v)).
    rewrite !MI in S.
    apply INR_le in S.
    rewrite (nth_error_nth c x 0%nat (x := nth i order 0%nat)) by (rewrite (reordered_nth _ _ _ _ _ C Ei); apply nth_error_nth'; lia).
    rewrite (nth_error_nth c y 0%nat (x := nth j order 0%nat)) by (rewrite (reordered_nth _ _ _ _ _ C Ej); apply nth_error_nth'; lia).
    assert (nth i order 0%nat <> nth j order 0%nat); [|lia]. intros Q.
    apply (proj1 (NoDup_nth order 0%nat) ND) in Q; [|lia|lia]. subst j.
    assert (x = y); [|lia]. apply (proj1 (NoDup_nth_error a)); [|lia|congruence]. unfold a. apply (asort_nodup _ A). }
  assert (Bound : forall x, (x < n)%nat -> (nth x c 0 < n)%nat).
  { intros x Hx. destruct (nth_error a x) as [i|] eqn:Ei; [|apply nth_error_None in Ei; lia].
    assert (Hi : (i < n)%nat) by (apply nth_error_In, (Permutation_in _ PA), in_seq in Ei; lia).
    rewrite (nth_error_nth c x 0%nat (x := nth i order 0%nat)) by (rewrite (reordered_nth _ _ _ _ _ C Ei); apply nth_error_nth'; lia).
    assert (In (nth i order 0%nat) order) as Q by (apply nth_In; lia). apply (Permutation_in _ P), in_seq in Q. lia. }
  assert (Lo : forall x, (x < n)%nat -> (x <= nth x c 0)%nat).
  { induction x as [|x IH]; intros Hx; [lia|]. specialize (IH ltac:(lia)). specialize (Mono x (S x) ltac:(lia) Hx). lia. }
  assert (Hi : forall d x, (x + S d = n)%nat -> (nth x c 0 <= x)%nat).
  { induction d as [|d IH]; intros x Hx; [specialize (Bound x ltac:(lia)); lia|].
    specialize (IH (S x) ltac:(lia)). specialize (Mono x (S x) ltac:(lia) ltac:(lia)). lia. }
  assert (K : nth k c 0%nat = k) by (specialize (Lo k Hk); specialize (Hi (n - S k)%nat k ltac:(lia)); lia).
  destruct (nth_error a k) as [i|] eqn:Ei; [|apply nth_error_None in Ei; lia].
  exists i. split; auto. rewrite <- (reordered_nth _ _ _ _ _ C Ei). rewrite (nth_error_nth' c 0%nat) by lia. congruence.
Qed.

(** C71: sorting the returned order gives the way back: whatever is listed in that order,
    np.argsort(order) lists as the neighbours were given *)
Theorem order_restores {A} asort order (l l' : list A) : argsort_ok asort -> Permutation order (seq 0 (length l)) ->
  reordered l order l' -> take_idx l' (asort (map INR order)) = Some l.
Proof.
  intros Ok P R. set (a := asort (map INR order)).
  assert (Lo : length order = length l) by (rewrite (Permutation_length P), seq_length; auto).
  assert (La : length a = length l) by (unfold a; rewrite asort_length, map_length; auto).
  destruct (reordered_ex l' a) as (m & E & M).
  { apply Forall_forall. intros i Hi. unfold a in Hi. apply (asort_indices _ Ok) in Hi.
    rewrite map_length in Hi. rewrite (reordered_length _ _ _ R). auto. }
  rewrite E. f_equal.
  assert (G : forall k, (k < length l)%nat -> nth_error m k = nth_error l k).
  { intros k Hk. destruct (asort_inverse asort order (length l) k Ok P Hk) as (i & Ei & Eo).
    rewrite (reordered_nth _ _ _ _ _ M Ei). apply (reordered_nth _ _ _ _ _ R Eo). }
  assert (Lm : length m = length l) by (rewrite (reordered_length _ _ _ M); auto).
  clear - G Lm. revert l G Lm. induction m as [|x m IH]; intros [|y l] G L; cbn in L; try discriminate; auto.
  f_equal; [specialize (G 0%nat ltac:(cbn; lia)); cbn in G; congruence|]. apply IH; [|lia].
  intros k Hk. apply (G (S k)). cbn. lia.
Qed.
Print Assumptions order_restores.

(** C71: beam and neighbours are turned by one angle, which puts the neighbour nearest the
    beam on the positive x axis; the order lists the turned neighbours counter-clockwise *)
Theorem standardize_frame asort beam neighbors : argsort_ok asort -> neighbors <> [] ->
  exists a n nb turned order listed,
    standardize_beam_and_neighbors asort beam neighbors = Ok (rotate beam a, turned, order) /\
    turned = map (fun p => rotate p a) neighbors /\
    nth_error neighbors n = Some nb /\ (forall q, In q neighbors -> pdist nb beam <= pdist q beam) /\
    (forall j q, (j < n)%nat -> nth_error neighbors j = Some q -> pdist nb beam < pdist q beam) /\
    nth_error turned n = Some (mkpt (pnorm nb) 0) /\
    Permutation order (seq 0 (length neighbors)) /\
    reordered turned order listed /\ counter_clockwise listed /\
    ((forall j q, j <> n -> nth_error turned j = Some q -> ~ direction q 0) -> nth_error order 0 = Some n).
Proof.
  intros A NE. unfold standardize_beam_and_neighbors.
  destruct (argmin_Some (map (fun n => pdist n beam) neighbors)) as (n & En); [destruct neighbors; [tauto|discriminate]|].
  rewrite En. apply argmin_spec in En as (Hn & Hmin & Hlt). rewrite map_length in Hn, Hmin.
  set (nb := nth n neighbors pzero).
  assert (Enb : nth_error neighbors n = Some nb) by (apply nth_error_nth'; auto).
  assert (MD : forall k, (k < length neighbors)%nat -> nth k (map (fun n => pdist n beam) neighbors) 0 = pdist (nth k neighbors pzero) beam).
  { intros k Hk. rewrite (nth_indep _ 0 (pdist pzero beam)) by (rewrite map_length; auto). apply (map_nth (fun n => pdist n beam)). }
  assert (NA : nth n (get_angles neighbors) 0 = get_angle nb).
  { unfold get_angles. rewrite (nth_indep _ 0 (get_angle pzero)) by (rewrite map_length; auto). apply map_nth. }
  rewrite NA. set (a := - get_angle nb). set (angles := map _ (get_angles neighbors)).
  assert (Lang : length angles = length neighbors) by (unfold angles, get_angles; rewrite !map_length; auto).
  assert (PO : Permutation (asort angles) (seq 0 (length neighbors))) by (rewrite <- Lang; apply asort_perm; auto).
  set (turned := rotate_coordinates neighbors a).
  assert (Lt : length turned = length neighbors) by (unfold turned, rotate_coordinates; rewrite map_length; auto).
  assert (Dir : forall i p, nth_error turned i = Some p -> direction p (nth i angles 0)).
  { intros i p Ep. unfold turned, rotate_coordinates in Ep. rewrite nth_error_map in Ep.
    destruct (nth_error neighbors i) as [q|] eqn:Eq; [|discriminate]. cbn in Ep. injection Ep as <-.
    unfold angles, get_angles. rewrite map_map. rewrite (nth_error_nth _ i 0 (x := rmod (get_angle q + a) (2 * PI))); [apply direction_polar|].
    rewrite nth_error_map, Eq. reflexivity. }
  destruct (reordered_ex turned (asort angles)) as (listed & _ & RL).
  { apply Forall_forall. intros i Hi. apply (Permutation_in _ PO), in_seq in Hi. lia. }
  assert (Tn : nth_error turned n = Some (mkpt (pnorm nb) 0)).
  { unfold turned, rotate_coordinates. rewrite nth_error_map, Enb. cbn. f_equal. apply rotate_to_axis. }
  exists a, n, nb, turned, (asort angles), listed. split; [reflexivity|]. split; [reflexivity|]. split; auto. split.
  { intros q Hq. apply In_nth_error in Hq. destruct Hq as (k & Ek). assert (Hk : (k < length neighbors)%nat) by (apply nth_error_Some; congruence).
    specialize (Hmin k Hk). rewrite !MD in Hmin by auto. rewrite (nth_error_nth _ _ _ Ek) in Hmin. exact Hmin. }
  split.
  { intros j q Hj Ej. specialize (Hlt j Hj). rewrite !MD in Hlt by lia. rewrite (nth_error_nth _ _ _ Ej) in Hlt. exact Hlt. }
  split; auto. split; auto. split; auto. split.
  - intros i j p q s t Hij Ep Eq Np Nq Dp Dq.
    assert (L : length listed = length neighbors) by (rewrite (reordered_length _ _ _ RL), asort_length; auto).
    assert (Hj : (j < length neighbors)%nat) by (rewrite <- L; apply nth_error_Some; congruence).
    assert (LA : length (asort angles) = length neighbors) by (rewrite asort_length; auto).
    destruct (nth_error (asort angles) i) as [i'|] eqn:Ei; [|apply nth_error_None in Ei; lia].
    destruct (nth_error (asort angles) j) as [j'|] eqn:Ej; [|apply nth_error_None in Ej; lia].
    rewrite (reordered_nth _ _ _ _ _ RL Ei) in Ep. rewrite (reordered_nth _ _ _ _ _ RL Ej) in Eq.
    rewrite (direction_unique _ _ _ Np Dp (Dir _ _ Ep)), (direction_unique _ _ _ Nq Dq (Dir _ _ Eq)).
    apply (asort_sorted _ A _ _ _ _ _ Hij Ei Ej).
  - intros Only. assert (In n (asort angles)) as Hin by (apply (asort_indices _ A); lia).
    apply In_nth_error in Hin. destruct Hin as ([|k] & Ek); auto. exfalso.
    assert (LA : length (asort angles) = length neighbors) by (rewrite asort_length; auto).
    destruct (nth_error (asort angles) 0) as [f|] eqn:Ef; [|apply nth_error_None in Ef; lia].
    pose proof (asort_sorted _ A _ _ _ _ _ (Nat.lt_0_succ k) Ef Ek) as Le.
    assert (f <> n).
    { intros ->. assert (0 = S k)%nat; [|lia]. apply (proj1 (NoDup_nth_error (asort angles)) (asort_nodup _ A angles)); [lia|congruence]. }
    assert (Hf : (f < length turned)%nat) by (apply nth_error_In, (asort_indices _ A) in Ef; lia).
    destruct (nth_error turned f) as [q|] eqn:Eq; [|apply nth_error_None in Eq; lia].
    assert (Zn : nth n angles 0 = 0).
    { unfold angles, get_angles. rewrite map_map. rewrite (nth_error_nth _ n 0 (x := rmod (get_angle nb + a) (2 * PI))).
      - unfold a. rewrite Rplus_opp_r. unfold rmod, Rdiv. rewrite Rmult_0_l. change 0 with (IZR 0) at 2. rewrite Zfloor_IZR. ring.
      - rewrite nth_error_map, Enb. reflexivity. }
    pose proof (Dir _ _ Eq) as D. rewrite Zn in Le. destruct D as [D1 D2]. assert (nth f angles 0 = 0) as Z by lra.
    apply (Only f q H Eq). rewrite <- Z. split; auto.
Qed.
Print Assumptions standardize_frame.

(** C71: nothing but the neighbours' turning: all distances are kept *)
Theorem standardize_keeps_distances asort beam neighbors beam' turned order :
  standardize_beam_and_neighbors asort beam neighbors = Ok (beam', turned, order) ->
  length turned = length neighbors /\ pnorm beam' = pnorm beam /\
  forall i p p', nth_error neighbors i = Some p -> nth_error turned i = Some p' ->
    pnorm p' = pnorm p /\ pdist p' beam' = pdist p beam /\
    forall j q q', nth_error neighbors j = Some q -> nth_error turned j = Some q' -> pdist p' q' = pdist p q.
Proof.
  unfold standardize_beam_and_neighbors. destruct (argmin _) as [n|]; [|discriminate]. intros H. injection H as <- <- _.
  unfold rotate_coordinates. split; [apply map_length|]. split; [apply rotate_norm|]. intros i p p' E E'.
  rewrite nth_error_map, E in E'. cbn in E'. injection E' as <-. split; [apply rotate_norm|]. split; [apply rotate_dist|].
  intros j q q' F F'. rewrite nth_error_map, F in F'. cbn in F'. injection F' as <-. apply rotate_dist.
Qed.
Print Assumptions standardize_keeps_distances.

(** C71: turning the input does not change the output *)
Theorem standardize_invariant asort beam neighbors t : Forall (fun p => p <> pzero) neighbors ->
  standardize_beam_and_neighbors asort (rotate beam t) (map (fun p => rotate p t) neighbors) =
  standardize_beam_and_neighbors asort beam neighbors.
Proof.
  intros F. unfold standardize_beam_and_neighbors. rewrite map_map.
  replace (map (fun x => pdist (rotate x t) (rotate beam t)) neighbors) with (map (fun n => pdist n beam) neighbors)
    by (apply map_ext; intros; symmetry; apply rotate_dist).
  destruct (argmin (map (fun n => pdist n beam) neighbors)) as [n|] eqn:En; [|reflexivity].
  apply argmin_spec in En as (Hn & _). rewrite map_length in Hn.
  set (nb := nth n neighbors pzero). assert (Inb : In nb neighbors) by (apply nth_In; auto).
  rewrite Forall_forall in F.
  assert (NA : nth n (get_angles neighbors) 0 = get_angle nb).
  { unfold get_angles. rewrite (nth_indep _ 0 (get_angle pzero)) by (rewrite map_length; auto). apply map_nth. }
  assert (NA' : nth n (get_angles (map (fun p => rotate p t) neighbors)) 0 = get_angle (rotate nb t)).
  { unfold get_angles. rewrite map_map. rewrite (nth_indep _ 0 (get_angle (rotate pzero t))) by (rewrite map_length; auto).
    apply (map_nth (fun p => get_angle (rotate p t))). }
  rewrite NA, NA'. destruct (angle_rotate nb t (F _ Inb)) as (k & Ek).
  assert (RR : forall p, rotate (rotate p t) (- get_angle (rotate nb t)) = rotate p (- get_angle nb)).
  { intros p. rewrite rotate_compose, Ek. rewrite <- (rotate_turnsZ p _ k). f_equal. ring. }
  rewrite RR. unfold rotate_coordinates, get_angles. rewrite !map_map. f_equal. f_equal; [f_equal|f_equal].
  - apply map_ext. auto.
  - apply map_ext_in. intros p Hp. destruct (angle_rotate p t (F _ Hp)) as (l & El). rewrite El, Ek.
    pose proof PI_RGT_0. rewrite <- (rmod_shift (get_angle p + - get_angle nb) (2 * PI) (l - k)) by lra. f_equal. rewrite minus_IZR. ring.
Qed.
Print Assumptions standardize_invariant.

(** C71: without neighbours there is none nearest *)
Theorem standardize_raises asort beam neighbors :
  standardize_beam_and_neighbors asort beam neighbors = Raise ValueError <-> neighbors = [].
Proof.
  unfold standardize_beam_and_neighbors. destruct (argmin _) as [n|] eqn:En.
  - split; [discriminate|]. intros ->. discriminate.
  - apply argmin_None in En. split; auto. intros _. destruct neighbors; auto. discriminate.
Qed.
Print Assumptions standardize_raises.

(** a beam above the silicon: the neighbour above is turned to the right and comes first *)
Example standardize_nonvacuous : exists turned,
  standardize_beam_and_neighbors argsort_stable (mkpt 0 1) [mkpt 2 0; mkpt 0 2] = Ok (mkpt 1 0, turned, [1; 0]%nat) /\
  nth_error turned 1 = Some (mkpt 2 0) /\ argsort_ok argsort_stable /\ reordered [10; 20] [1; 0]%nat [20; 10].
Proof.
  destruct (standardize_frame argsort_stable (mkpt 0 1) [mkpt 2 0; mkpt 0 2] argsort_stable_ok ltac:(discriminate))
    as (a & n & nb & turned & order & listed & E & T & En & Hmin & _ & Tn & P & RL & CC & First).
  assert (D1 : pdist (mkpt 2 0) (mkpt 0 1) = sqrt 5) by (unfold pdist, pnorm, psq; cbn; f_equal; lra).
  assert (D2 : pdist (mkpt 0 2) (mkpt 0 1) = 1).
  { unfold pdist, pnorm, psq. cbn. replace (_ + _) with (1 * 1) by lra. apply sqrt_square. lra. }
  assert (S5 : 1 < sqrt 5) by (rewrite <- sqrt_1; apply sqrt_lt_1; lra).
  assert (n = 1%nat).
  { destruct n as [|[|n]]; auto; [|cbn in En; destruct n; discriminate]. cbn in En. injection En as <-.
    specialize (Hmin (mkpt 0 2) ltac:(cbn; auto)). lra. }
  subst n. cbn in En. injection En as <-.
  assert (N2 : pnorm (mkpt 0 2) = 2).
  { unfold pnorm, psq. cbn. replace (_ + _) with (2 * 2) by lra. apply sqrt_square. lra. }
  rewrite N2 in Tn. rewrite T in Tn. cbn in Tn. injection Tn as Ta Tb.
  assert (sin a = -1) as Sa by lra. assert (cos a = 0) as Ca by lra.
  assert (O : order = [1; 0]%nat).
  { assert (F0 : nth_error order 0 = Some 1%nat).
    { apply First. intros j q Hj Eq [_ D]. rewrite T in Eq. destruct j as [|[|j]]; [|tauto|cbn in Eq; destruct j; discriminate].
      cbn in Eq. injection Eq as <-. apply (f_equal py) in D. cbn in D. rewrite sin_0, Sa in D. lra. }
    pose proof (Permutation_length P) as L. destruct order as [|o [|o' [|? ?]]]; cbn in L; try discriminate.
    cbn in F0. injection F0 as ->. assert (In 0%nat [1; o']%nat) as [|[->|[]]] by (apply (Permutation_in _ (Permutation_sym P)); cbn; auto); [discriminate|auto]. }
  exists turned. rewrite E, O. split; [|split; [|split; [apply argsort_stable_ok|]]].
  - do 3 f_equal. unfold rotate. cbn. rewrite Sa, Ca. apply pt_eq; cbn; ring.
  - rewrite T. cbn. unfold rotate. cbn. rewrite Sa, Ca. f_equal. apply pt_eq; cbn; ring.
  - repeat constructor.
Qed.

Print Assumptions direction_unique.
