(** C86: which transitions are learned from, and what is learned *)
From Coq Require Import Reals ZArith List Bool Arith Lia Lra Permutation.
From Verif Require Import Base.Prelude Base.Rounding Model.Constants Model.Geometry Model.Graphene Model.MicroscopeUtils
  Model.Alignment Model.DataUtils Model.Io Model.Pipeline Model.RateData
  Spec.Grids Spec.Orienting Spec.RateLearning
  Proofs.BaseFacts Proofs.GeometryFacts Proofs.FovFacts Proofs.AlignFacts Proofs.NearestFacts Props.OrientProps.
Import ListNotations.
Open Scope R_scope.

Lemma seen_positions f g : wf_grid g -> map fst (seen_atoms f g) = positions (grid_to_material f g).
Proof.
  intros W. unfold seen_atoms, atoms, grid_to_material, grid_map_pos. cbn [positions]. rewrite map_map. cbn [fst].
  rewrite <- (map_map fst (at_relative f)). rewrite map_fst_combine by auto. apply map_ext. intros. symmetry. apply to_material_pt_eq.
Qed.
Lemma seen_numbers f g : wf_grid g -> map snd (seen_atoms f g) = numbers (grid_to_material f g).
Proof.
  intros W. unfold seen_atoms, atoms, grid_to_material, grid_map_pos. cbn [numbers]. rewrite map_map. cbn [snd].
  apply map_snd_combine. auto.
Qed.

Lemma mask_atoms (l : list (pt * Z)) : mask_select (silicon_mask (map snd l)) (map fst l) = map fst (filter (fun a => Z.eqb 14 (snd a)) l).
Proof. induction l as [|[p z] l IH]; auto. unfold silicon_mask in *. cbn [map mask_select snd fst filter]. change SILICON with 14%Z in *. destruct (14 =? z)%Z; cbn [map]; rewrite IH; auto. Qed.

Lemma only_silicon_iff f g p : wf_grid g -> (get_silicon_positions (grid_to_material f g) = [p] <-> only_silicon (seen_atoms f g) p).
Proof.
  intros W. unfold get_silicon_positions. rewrite <- (seen_positions f g W), <- (seen_numbers f g W), mask_atoms.
  unfold only_silicon. set (l := seen_atoms f g).
  assert (S : selects (fun a : pt * Z => snd a = 14%Z) l (filter (fun a => Z.eqb 14 (snd a)) l)).
  { apply selects_filter. intros a. rewrite Z.eqb_eq. split; auto. }
  split.
  - intros E. destruct (filter _ l) as [|a [|b r]] eqn:EF; try discriminate. cbn in E. injection E as E.
    assert (snd a = 14%Z) as Ea.
    { assert (In a (filter (fun a => Z.eqb 14 (snd a)) l)) as Hin by (rewrite EF; left; auto). apply filter_In in Hin as [_ Hin].
      apply Z.eqb_eq in Hin. auto. }
    destruct a as [q z]. cbn in *. subst. exact S.
  - intros O. rewrite (selects_fun _ _ _ _ S O). auto.
Qed.
Lemma only_silicon_unique l p q : only_silicon l p -> only_silicon l q -> p = q.
Proof. intros A B. pose proof (selects_fun _ _ _ _ A B) as E. congruence. Qed.
Lemma only_silicon_In l p : only_silicon l p -> forall a, In a l -> snd a = 14%Z <-> a = (p, 14%Z).
Proof.
  intros O a Ha. split; [|intros ->; auto]. intros E. assert (In a [(p, 14%Z)]) as H; [|destruct H as [H|[]]; auto].
  apply (proj2 (selects_In _ _ _ O a)). auto.
Qed.
Lemma only_silicon_there l p : only_silicon l p -> In (p, 14%Z) l.
Proof. intros O. apply (proj1 (selects_In _ _ _ O (p, 14%Z))). left; auto. Qed.

Lemma at_indices_atoms (l n : list (pt * Z)) idx : take_idx l idx = Some n ->
  at_indices (map fst l) idx = Ok (map fst n) /\ at_indices (map snd l) idx = Ok (map snd n).
Proof.
  unfold at_indices. revert n. induction idx as [|i idx IH]; intros n H; cbn in *.
  - injection H as <-. auto.
  - rewrite !nth_error_map. destruct (nth_error l i) as [a|]; [|discriminate]. destruct (take_idx l idx) as [n'|]; [|discriminate].
    injection H as <-. cbn. destruct (IH n' eq_refl) as [I1 I2].
    destruct (take_idx (map fst l) idx); [|discriminate]. injection I1 as ->.
    destruct (take_idx (map snd l) idx); [|discriminate]. injection I2 as ->. auto.
Qed.

Lemma rmin_fold l : forall x, (In (fold_right Rmin x l) (x :: l)) /\ forall y, In y (x :: l) -> fold_right Rmin x l <= y.
Proof.
  induction l as [|z l IH]; intros x; cbn.
  - split; auto. intros y [->|[]]. lra.
  - destruct (IH x) as [I1 I2]. cbn in I1. split.
    + destruct (Rle_dec z (fold_right Rmin x l)); [rewrite Rmin_left by lra|rewrite Rmin_right by lra]; tauto.
    + intros y [<-|[<-|H]].
      * eapply Rle_trans; [apply Rmin_r|]. apply I2; cbn; auto.
      * apply Rmin_l.
      * eapply Rle_trans; [apply Rmin_r|]. apply I2; cbn; auto.
Qed.
Lemma rmin_distance n p : n <> [] -> distance_to n p (rmin (map (pdist p) (map fst n))).
Proof.
  intros NE. destruct n as [|a n]; [tauto|]. cbn [map rmin]. destruct (rmin_fold (map (pdist p) (map fst n)) (pdist p (fst a))) as [I1 I2].
  rewrite map_map in *. split.
  - destruct I1 as [E|E]; [exists a; split; [left; auto|exact E]|]. apply in_map_iff in E as (b & E & Hb). exists b. split; [right; auto|auto].
  - intros b [<-|Hb]; apply I2; [left; auto|right]. apply in_map_iff. exists b. auto.
Qed.
Lemma distance_unique n p d e : distance_to n p d -> distance_to n p e -> d = e.
Proof. intros [(a & Ha & <-) A] [(b & Hb & <-) B]. apply Rle_antisym; auto. Qed.

Lemma matched_iff near near' cutoff : near <> [] -> near' <> [] ->
  (Rltb cutoff (rmean (map (fun p => rmin (map (pdist p) (map fst near'))) (map fst near))) = false <-> matched near near' cutoff).
Proof.
  intros N N'. set (ds := map (fun p => rmin (map (pdist p) (map fst near'))) (map fst near)).
  assert (F : Forall2 (fun a d => distance_to near' (fst a) d) near ds).
  { unfold ds. rewrite map_map. clear N ds. induction near as [|a near IH]; cbn; constructor; auto. apply rmin_distance; auto. }
  assert (L : length ds = length near) by (unfold ds; rewrite !map_length; auto).
  assert (P : 0 < INR (length near)) by (apply lt_0_INR; destruct near; [tauto|cbn; lia]).
  unfold rmean. rewrite Rltb_false, L.
  assert (E : rsum ds / INR (length near) <= cutoff <-> rsum ds <= cutoff * INR (length near)).
  { split; intros H.
    - apply (Rmult_le_compat_r (INR (length near))) in H; [|lra]. unfold Rdiv in H. rewrite Rmult_assoc, Rinv_l, Rmult_1_r in H; lra.
    - apply (Rmult_le_reg_r (INR (length near))); auto. unfold Rdiv. rewrite Rmult_assoc, Rinv_l, Rmult_1_r; lra. }
  rewrite E. split.
  - intros H. exists ds. auto.
  - intros (es & F' & H). replace ds with es; auto. clear - F F'. revert es F'.
    induction F as [|a d near ds H F IH]; intros es F'; inversion F' as [|? e ? es' H' F'' E1 E2]; subst; auto.
    f_equal; [eapply distance_unique; eauto|apply IH; auto].
Qed.

Section Processing.
Variable knn : knn_fn.
Variable asort : argsort_fn.
Hypothesis K : knn_ok knn.
Hypothesis A : argsort_ok asort.
Variable cutoff : R.

(** what is looked at, in the order in which it is looked at *)
Lemma process_steps tr : wf_grid (t_grid_before tr) -> wf_grid (t_grid_after tr) ->
  let before := seen_atoms (t_fov_before tr) (t_grid_before tr) in
  let after := seen_atoms (t_fov_after tr) (t_grid_after tr) in
  let r := process_transition knn asort cutoff tr in
  (length (t_controls tr) <> 1%nat /\ r = Ok (inl NoControls)) \/
  exists c, t_controls tr = [c] /\
  (~ (exists si, only_silicon before si) /\ r = Ok (inl WrongNumberOfSilicons) \/
  exists si, only_silicon before si /\
  ((length before < 10)%nat /\ r = Raise ValueError \/
  ((10 <= length before)%nat /\
  (fourfold before si /\ r = Ok (inl IsFourfold) \/
  (~ fourfold before si /\
  (~ threefold before si /\ r = Ok (inl NotThreefold) \/
  (threefold before si /\
  ((length after < 4)%nat /\ r = Raise ValueError \/
  ((4 <= length after)%nat /\
  (~ (exists si', only_silicon after si') /\ r = Ok (inl WrongNumberOfSilicons) \/
  exists si' p0 p1 p2 p3 near', only_silicon after si' /\ nearest_atoms 4 before si [p0; p1; p2; p3] /\ fst p0 = si /\
  nearest_atoms 4 after si near' /\
  (~ In (si', 14%Z) near' /\ r = Ok (inl NoSiliconNeighbor) \/
  (In (si', 14%Z) near' /\
  (~ matched [p0; p1; p2; p3] near' cutoff /\ r = Ok (inl NeighborsTooDistant) \/
  (matched [p0; p1; p2; p3] near' cutoff /\
  exists d, describes (t_fov_before tr) c si si' (map fst [p1; p2; p3]) d /\ r = Ok (inr d))))))))))))))).
Proof.
  intros Wb Wa before after r. assert (H : r = process_transition knn asort cutoff tr) by reflexivity. clearbody r.
  unfold process_transition in H. cbv zeta in H.
  destruct (t_controls tr) as [|c [|c' cs]]; [left; split; [discriminate|auto]| |left; split; [discriminate|auto]].
  right. exists c. split; auto.
  pose proof (only_silicon_iff (t_fov_before tr) (t_grid_before tr)) as OB.
  pose proof (only_silicon_iff (t_fov_after tr) (t_grid_after tr)) as OA. fold before in OB. fold after in OA.
  set (gb := grid_to_material (t_fov_before tr) (t_grid_before tr)) in *.
  set (ga := grid_to_material (t_fov_after tr) (t_grid_after tr)) in *.
  assert (NS : forall (g : grid) (l : list (pt * Z)), (forall p, get_silicon_positions g = [p] <-> only_silicon l p) ->
    (forall p, get_silicon_positions g <> [p]) -> ~ (exists si, only_silicon l si)).
  { intros g l Hg N (si & O). apply Hg in O. apply (N si). auto. }
  destruct (get_silicon_positions gb) as [|si [|? ?]] eqn:Eb.
  { left. split; auto. intros (si & O). apply OB in O; auto. discriminate. }
  2: { left. split; auto. intros (si' & O). apply OB in O; auto. discriminate. }
  right. exists si. assert (Os : only_silicon before si) by (apply OB; auto). split; auto.
  assert (Lb : length (positions gb) = length before) by (unfold gb; rewrite <- (seen_positions _ _ Wb), map_length; auto).
  assert (La : length (positions ga) = length after) by (unfold ga; rewrite <- (seen_positions _ _ Wa), map_length; auto).
  unfold kneighbors at 1 in H. rewrite Lb in H. destruct (Nat.ltb_spec (length before) 10) as [Lt|Ge].
  { left. split; auto. }
  right. split; auto. cbn [bind] in H.
  destruct (knn_nearest_atoms knn 10 before si K Ge) as (n & En & Nn).
  assert (Pb : positions gb = map fst before) by (symmetry; apply seen_positions; auto).
  rewrite Pb in H. destruct (at_indices_atoms _ _ _ En) as [X _]. rewrite X in H. clear X. cbn [bind] in H. rewrite map_map in H. fold (distances n si) in H.
  assert (There : exists a, In a before /\ fst a = si) by (exists (si, 14%Z); split; auto; apply only_silicon_there; auto).
  pose proof (is_fourfold_iff before si n Nn) as F4. pose proof (is_threefold_iff before si n Nn There) as F3.
  destruct (is_fourfold (distances n si)); [left; split; auto; apply F4; auto|].
  right. split; [intros F; apply F4 in F; discriminate|].
  destruct (is_threefold (distances n si)); cbn [negb] in H; [|left; split; auto; intros F; apply F3 in F; discriminate].
  right. split; [apply F3; auto|].
  unfold kneighbors in H. rewrite La in H. destruct (Nat.ltb_spec (length after) 4) as [Lt|Ge4].
  { left. split; auto. }
  right. split; auto. cbn [bind] in H.
  destruct (knn_nearest_atoms knn 4 after si K Ge4) as (near' & En' & Nn').
  assert (Pa : positions ga = map fst after) by (symmetry; apply seen_positions; auto).
  assert (Na : numbers ga = map snd after) by (symmetry; apply seen_numbers; auto).
  rewrite Pa, Na in H. destruct (at_indices_atoms _ _ _ En') as [X Y]. rewrite X, Y in H. clear X Y. cbn [bind] in H.
  destruct (get_silicon_positions ga) as [|si' [|? ?]] eqn:Ea.
  { left. split; auto. intros (si' & O). apply OA in O; auto. discriminate. }
  2: { left. split; auto. intros (si'' & O). apply OA in O; auto. discriminate. }
  right. assert (Os' : only_silicon after si') by (apply OA; auto).
  pose proof (nearest_firstn 10 4 before si n ltac:(lia) Nn) as N4.
  pose proof Nn as (Ln & rest & Pn & Sn & Rn). destruct (len10 n Ln) as (p0 & p1 & p2 & p3 & x4 & x5 & x6 & x7 & x8 & x9 & En10).
  assert (E4 : firstn 4 n = [p0; p1; p2; p3]) by (subst n; auto). rewrite E4 in N4.
  assert (F0 : fst p0 = si).
  { assert (In (si, 14%Z) (n ++ rest)) as Hin by (apply (Permutation_in _ Pn), only_silicon_there; auto).
    apply pdist_zero. apply Rle_antisym; [|apply pdist_nonneg]. rewrite <- (pdist_self si).
    apply in_app_iff in Hin as [Hin|Hin].
    - apply In_nth_error in Hin as ([|i] & Ei).
      + subst n. cbn in Ei. injection Ei as ->. cbn. lra.
      + apply (Sn 0%nat (S i) p0 (si, 14%Z)); auto; [lia|subst n; auto].
    - apply (Rn p0 (si, 14%Z)); auto. subst n. left; auto. }
  exists si', p0, p1, p2, p3, near'. split; auto. split; auto. split; auto. split; auto.
  assert (NE' : near' <> []) by (destruct Nn' as (L' & _); destruct near'; [discriminate|discriminate]).
  assert (Ex : existsb (fun z => Z.eqb z SILICON) (map snd near') = true <-> In (si', 14%Z) near').
  { assert (Sub : forall a, In a near' -> In a after).
    { intros a Ha. destruct Nn' as (_ & rest' & P' & _). apply (Permutation_in _ (Permutation_sym P')), in_or_app. auto. }
    rewrite existsb_exists. split.
    - intros (z & Hz & E). apply in_map_iff in Hz as (a & <- & Ha). apply Z.eqb_eq in E.
      apply (only_silicon_In _ _ Os' a (Sub a Ha)) in E. subst; auto.
    - intros Hin. exists 14%Z. split; auto. apply in_map_iff. exists (si', 14%Z). auto. }
  destruct (existsb _ (map snd near')); cbn [negb] in H.
  2: { left. split; auto. intros C. apply Ex in C. discriminate. }
  right. split; [apply Ex; auto|].
  rewrite firstn_map, E4 in H.
  pose proof (matched_iff [p0; p1; p2; p3] near' cutoff ltac:(discriminate) NE') as M.
  destruct (Rltb cutoff _).
  { left. split; auto. intros C. apply M in C. discriminate. }
  right. split; [apply M; auto|]. cbn [map tl] in H.
  set (beam := psub (c_position (control_map_pos (to_material_pt (t_fov_before tr)) c)) si) in *.
  destruct (standardize_frame asort beam [psub (fst p1) si; psub (fst p2) si; psub (fst p3) si] A ltac:(discriminate))
    as (a & m & nb & turned & order & listed & E & Et & Em & Hmin & _ & Tm & Po & RL & CC & First).
  rewrite E in H. cbn [bind] in H. unfold transition_state in H.
  destruct (argmin_Some (map (fun p => pdist p si') [fst p0; fst p1; fst p2; fst p3]) ltac:(discriminate)) as (k & Ek).
  cbn [map] in Ek, H. rewrite Ek in H. apply argmin_spec in Ek as (Hk & Kmin & Klt). cbn [length] in Hk.
  set (bm := at_relative (t_fov_before tr) (c_position c)).
  assert (Ebeam : beam = psub bm si) by (unfold beam, control_map_pos; cbn; rewrite to_material_pt_eq; auto).
  assert (DS : forall p q, pdist (psub p si) (psub q si) = pdist p q).
  { intros p q. unfold pdist. f_equal. unfold psub. cbn. f_equal; ring. }
  set (nbs := [fst p1; fst p2; fst p3]) in *.
  assert (Enb : exists i q, (i < 3)%nat /\ nth_error nbs i = Some q /\ nb = psub q si /\ m = i).
  { destruct m as [|[|[|m]]]; cbn in Em; [| | |destruct m; discriminate]; injection Em as <-;
      [exists 0%nat, (fst p1)|exists 1%nat, (fst p2)|exists 2%nat, (fst p3)]; cbn; auto. }
  destruct Enb as (m' & q & Hm & Eq & -> & ->).
  destruct (reordered_ex nbs order) as (orig & _ & RO).
  { apply Forall_forall. intros i Hi. apply (Permutation_in _ Po), in_seq in Hi. cbn in *. lia. }
  assert (Listed : listed = map (fun p => rotate (psub p si) a) orig).
  { clear - RL RO Et. unfold reordered in *. revert orig RO. induction RL as [|i x order listed H RL IH]; intros orig RO; inversion RO as [|? y ? orig' H' RO' E1 E2]; subst; auto.
    cbn. f_equal; [|apply IH; auto]. rewrite nth_error_map in H. destruct i as [|[|[|i]]]; cbn in H, H'; try congruence. destruct i; discriminate. }
  assert (PermL : Permutation orig nbs).
  { assert (orig = map (fun i => nth i nbs pzero) order) as ->.
    { clear - RO. clearbody nbs. induction RO as [|i x order orig H RO IH]; auto. cbn [map]. f_equal; auto. symmetry. apply nth_error_nth. auto. }
    eapply perm_trans; [apply Permutation_map; exact Po|]. apply Permutation_refl. }
  assert (Done : forall st, (st = 0%nat /\ (forall q, In q nbs -> pdist si si' <= pdist q si') \/
     exists i q, st = S i /\ nth_error orig i = Some q /\ pdist q si' < pdist si si' /\
       forall q', In q' nbs -> pdist q si' <= pdist q' si') ->
     describes (t_fov_before tr) c si si' (map fst [p1; p2; p3]) (mkrate_point st (rotate beam a)
       (total_seconds (c_dwell (control_map_pos (to_material_pt (t_fov_before tr)) c)))
       (c_current_na (control_map_pos (to_material_pt (t_fov_before tr)) c))
       (c_voltage_kv (control_map_pos (to_material_pt (t_fov_before tr)) c)))).
  { intros st Hst. split; cbn [rp_seconds_between rp_current rp_voltage rp_beam_pos rp_next_state]; auto.
    exists a, q, orig. cbn zeta. fold bm. change (map fst [p1; p2; p3]) with nbs.
    split; [eapply nth_error_In; eauto|]. split.
    { intros w Hr. rewrite <- (DS q bm), <- (DS w bm). rewrite <- Ebeam. apply Hmin. cbn in Hr |- *. destruct Hr as [<-|[<-|[<-|[]]]]; auto. }
    split.
    { rewrite Et, nth_error_map in Tm. destruct m' as [|[|[|m']]]; cbn in Tm, Eq; [| | |lia]; injection Eq as <-;
        exact (f_equal (fun o => match o with Some x => x | None => pzero end) Tm). }
    split; [rewrite Ebeam; auto|]. split; auto. split; [rewrite <- Listed; auto|]. split; auto.
    intros ND Only.
    assert (nth_error order 0 = Some m') as O0.
    { apply First. intros j w Hj Ej Dr. rewrite Et, nth_error_map in Ej.
      destruct (nth_error _ j) as [r0|] eqn:Ej0; [|discriminate]. cbn in Ej. injection Ej as <-.
      assert (exists q', nth_error nbs j = Some q' /\ r0 = psub q' si) as (q' & Eq' & ->).
      { destruct j as [|[|[|j]]]; cbn in Ej0; [| | |destruct j; discriminate]; injection Ej0 as <-; cbn; eexists; eauto. }
      apply (Only q'); auto; [eapply nth_error_In; eauto|]. intros ->. apply Hj.
      apply (proj1 (NoDup_nth_error nbs) ND); [apply nth_error_lt in Eq'; auto|congruence]. }
    rewrite (reordered_nth _ _ _ _ _ RO O0). auto. }
  assert (Near : forall i x, nth_error [si; fst p1; fst p2; fst p3] i = Some x ->
     nth i [pdist (fst p0) si'; pdist (fst p1) si'; pdist (fst p2) si'; pdist (fst p3) si'] 0 = pdist x si').
  { intros i x Hx. rewrite F0. destruct i as [|[|[|[|i]]]]; cbn in Hx |- *; try congruence. destruct i; discriminate. }
  destruct k as [|k].
  { cbn [bind] in H. eexists. split; [|exact H]. apply Done. left. split; auto.
    intros w Hr. apply In_nth_error in Hr as (j & Ej).
    pose proof (Near 0%nat si eq_refl) as N0. pose proof (Near (S j) w Ej) as Nj. rewrite <- N0, <- Nj. apply Kmin.
    apply nth_error_lt in Ej. cbn in *. lia. }
  destruct (asort_inverse asort order 3 k A Po ltac:(lia)) as (i & Ei & Eo). rewrite Ei in H. cbn [bind] in H.
  eexists. split; [|exact H]. apply Done. right.
  destruct (nth_error nbs k) as [w|] eqn:Er; [|apply nth_error_None in Er; cbn in Er; lia].
  exists i, w. split; auto. split; [rewrite (reordered_nth _ _ _ _ _ RO Eo); auto|].
  pose proof (Near (S k) w Er) as Nk. split.
  - pose proof (Near 0%nat si eq_refl) as N0. rewrite <- N0, <- Nk. apply Klt. lia.
  - intros q' Hq'. apply In_nth_error in Hq' as (j & Ej). pose proof (Near (S j) q' Ej) as Nj. rewrite <- Nk, <- Nj. apply Kmin.
    apply nth_error_lt in Ej. cbn in *. lia.
Qed.
End Processing.

(** C86: a transition that is learned from had one exposure, one silicon before and after, was
    threefold and not nearly fourfold, its surroundings were found again, and the data point
    says where the beam was and where the silicon went *)
Theorem kept_means knn asort cutoff tr d : knn_ok knn -> argsort_ok asort ->
  wf_grid (t_grid_before tr) -> wf_grid (t_grid_after tr) ->
  process_transition knn asort cutoff tr = Ok (inr d) ->
  let before := seen_atoms (t_fov_before tr) (t_grid_before tr) in
  let after := seen_atoms (t_fov_after tr) (t_grid_after tr) in
  exists c si si' self nbs near',
    t_controls tr = [c] /\ only_silicon before si /\ only_silicon after si' /\
    (10 <= length before)%nat /\ ~ fourfold before si /\ threefold before si /\
    nearest_atoms 4 before si (self :: nbs) /\ fst self = si /\ nearest_atoms 4 after si near' /\
    In (si', 14%Z) near' /\ matched (self :: nbs) near' cutoff /\
    describes (t_fov_before tr) c si si' (map fst nbs) d.
Proof.
  intros K A Wb Wa E before after. pose proof (process_steps knn asort K A cutoff tr Wb Wa) as H. cbn zeta in H. rewrite E in H.
  fold before after in H.
  destruct H as [[_ H]|(c & Ec & [[_ H]|(si & Os & [[_ H]|(Ge & [[_ H]|(N4 & [[_ H]|(T3 & [[_ H]|(G4 & [[_ H]|H])])])])])])]; try discriminate.
  destruct H as (si' & p0 & p1 & p2 & p3 & near' & Os' & N & F0 & N' & [[_ H]|(Hin & [[_ H]|(M & d' & D & H)])]); try discriminate.
  injection H as <-. exists c, si, si', p0, [p1; p2; p3], near'. repeat (split; auto).
Qed.
Print Assumptions kept_means.

(** C86: what is left out is left out for the reason that is counted *)
Theorem left_out_means knn asort cutoff tr r : knn_ok knn -> argsort_ok asort ->
  wf_grid (t_grid_before tr) -> wf_grid (t_grid_after tr) ->
  process_transition knn asort cutoff tr = Ok (inl r) ->
  let before := seen_atoms (t_fov_before tr) (t_grid_before tr) in
  let after := seen_atoms (t_fov_after tr) (t_grid_after tr) in
  match r with
  | NoControls => length (t_controls tr) <> 1%nat
  | WrongNumberOfSilicons => ~ (exists si, only_silicon before si) \/ ~ (exists si', only_silicon after si')
  | IsFourfold => exists si, only_silicon before si /\ fourfold before si
  | NotThreefold => exists si, only_silicon before si /\ ~ fourfold before si /\ ~ threefold before si
  | NoSiliconNeighbor => exists si si' near', only_silicon before si /\ only_silicon after si' /\
      nearest_atoms 4 after si near' /\ ~ In (si', 14%Z) near'
  | NeighborsTooDistant => exists si near near', only_silicon before si /\
      nearest_atoms 4 before si near /\ nearest_atoms 4 after si near' /\ ~ matched near near' cutoff
  end.
Proof.
  intros K A Wb Wa E before after. pose proof (process_steps knn asort K A cutoff tr Wb Wa) as H. cbn zeta in H. rewrite E in H.
  fold before after in H.
  destruct H as [[L H]|(c & Ec & [[Ns H]|(si & Os & [[_ H]|(Ge & [[F4 H]|(N4 & [[N3 H]|(T3 & [[_ H]|(G4 & [[Ns H]|H])])])])])])];
    try (injection H as ->); try discriminate; eauto 8.
  destruct H as (si' & p0 & p1 & p2 & p3 & near' & Os' & N & F0 & N' & [[Nin H]|(Hin & [[M H]|(M & d' & D & H)])]); try discriminate;
    injection H as ->.
  - exists si, si', near'. auto.
  - exists si, [p0; p1; p2; p3], near'. auto.
Qed.
Print Assumptions left_out_means.

(** C86: conversely, every transition that meets the criteria is learned from *)
Theorem criteria_suffice knn asort cutoff tr c si si' : knn_ok knn -> argsort_ok asort ->
  wf_grid (t_grid_before tr) -> wf_grid (t_grid_after tr) ->
  let before := seen_atoms (t_fov_before tr) (t_grid_before tr) in
  let after := seen_atoms (t_fov_after tr) (t_grid_after tr) in
  t_controls tr = [c] -> only_silicon before si -> only_silicon after si' ->
  (10 <= length before)%nat -> (4 <= length after)%nat -> ~ fourfold before si -> threefold before si ->
  (forall near near', nearest_atoms 4 before si near -> nearest_atoms 4 after si near' ->
     In (si', 14%Z) near' /\ matched near near' cutoff) ->
  exists d, process_transition knn asort cutoff tr = Ok (inr d).
Proof.
  intros K A Wb Wa before after Ec Os Os' Ge G4 N4 T3 Near.
  pose proof (process_steps knn asort K A cutoff tr Wb Wa) as H. cbn zeta in H. fold before after in H.
  destruct H as [[L H]|(c' & _ & [[Ns _]|(s & Os1 & H)])]; [rewrite Ec in L; cbn in L; lia|exfalso; eauto|].
  rewrite (only_silicon_unique _ _ _ Os1 Os) in *. clear s Os1.
  destruct H as [[L _]|(_ & [[F4 _]|(_ & [[N3 _]|(_ & [[L _]|(_ & [[Ns _]|H])])])])]; try lia; try tauto; [exfalso; eauto|].
  destruct H as (s' & p0 & p1 & p2 & p3 & near' & Os1 & N & F0 & N' & H). rewrite (only_silicon_unique _ _ _ Os1 Os') in *.
  destruct (Near _ _ N N') as [Hin M]. destruct H as [[Nin _]|(_ & [[Nm _]|(_ & d & _ & H)])]; try tauto. eauto.
Qed.
Print Assumptions criteria_suffice.

(** C86: the only exception is a ValueError: fewer than ten atoms around a lone silicon, or
    fewer than four in the picture after *)
Theorem processing_raises knn asort cutoff tr : knn_ok knn -> argsort_ok asort ->
  wf_grid (t_grid_before tr) -> wf_grid (t_grid_after tr) ->
  let before := seen_atoms (t_fov_before tr) (t_grid_before tr) in
  let after := seen_atoms (t_fov_after tr) (t_grid_after tr) in
  process_transition knn asort cutoff tr <> OutOfFuel /\
  forall e, process_transition knn asort cutoff tr = Raise e <->
    e = ValueError /\ length (t_controls tr) = 1%nat /\ exists si, only_silicon before si /\
    ((length before < 10)%nat \/
     (10 <= length before)%nat /\ ~ fourfold before si /\ threefold before si /\ (length after < 4)%nat).
Proof.
  intros K A Wb Wa before after.
  pose proof (process_steps knn asort K A cutoff tr Wb Wa) as H. cbn zeta in H. fold before after in H.
  destruct H as [[L H]|(c & Ec & [[Ns H]|(si & Os & [[Lt H]|(Ge & [[F4 H]|(N4 & [[N3 H]|(T3 & [[Lt H]|(G4 & [[Ns H]|H])])])])])])].
  - rewrite H. split; [discriminate|]. intros e. split; [discriminate|]. intros (_ & L' & _). tauto.
  - rewrite H. split; [discriminate|]. intros e. split; [discriminate|]. intros (_ & _ & si & O & _). exfalso. eauto.
  - rewrite H. split; [discriminate|]. intros e. split; [intros X; injection X as <-; rewrite Ec; eauto 6|]. intros (-> & _). auto.
  - rewrite H. split; [discriminate|]. intros e. split; [discriminate|]. intros (_ & _ & s & O & X).
    rewrite (only_silicon_unique _ _ _ O Os) in *. destruct X as [X|(_ & X & _)]; [lia|tauto].
  - rewrite H. split; [discriminate|]. intros e. split; [discriminate|]. intros (_ & _ & s & O & X).
    rewrite (only_silicon_unique _ _ _ O Os) in *. destruct X as [X|(_ & _ & X & _)]; [lia|tauto].
  - rewrite H. split; [discriminate|]. intros e. split; [intros X; injection X as <-; rewrite Ec; eauto 12|]. intros (-> & _). auto.
  - rewrite H. split; [discriminate|]. intros e. split; [discriminate|]. intros (_ & _ & s & O & X). lia.
  - destruct H as (si' & p0 & p1 & p2 & p3 & near' & Os' & N & F0 & N' & H).
    assert (exists o, process_transition knn asort cutoff tr = Ok o) as (o & Eo)
      by (destruct H as [[Nin H]|(Hin & [[M H]|(M & d' & D & H)])]; eauto).
    rewrite Eo. split; [discriminate|]. intros e. split; [discriminate|]. intros (_ & _ & s & O & X). lia.
Qed.
Print Assumptions processing_raises.

(** C86: labels are 0 to 3 *)
Theorem labels_in_range knn asort cutoff tr d : knn_ok knn -> argsort_ok asort ->
  wf_grid (t_grid_before tr) -> wf_grid (t_grid_after tr) ->
  process_transition knn asort cutoff tr = Ok (inr d) -> (rp_next_state d <= 3)%nat.
Proof.
  intros K A Wb Wa E. destruct (kept_means knn asort cutoff tr d K A Wb Wa E) as (c & si & si' & self & nbs & near' & _ & _ & _ & _ & _ & _ & N & _ & _ & _ & _ & D).
  destruct (ds_frame _ _ _ _ _ _ D) as (a & nb & listed & _ & _ & _ & _ & P & _ & _ & [[-> _]|(i & q & -> & Ei & _)]); [lia|].
  apply nth_error_lt in Ei. apply Permutation_length in P. rewrite map_length in P. destruct N as [L _]. cbn in L. lia.
Qed.
Print Assumptions labels_in_range.

(** C86: every transition is learned from or counted, in order *)
Theorem everything_counted knn asort cutoff ts data reasons :
  transitions_to_datapoints knn asort cutoff false ts = Ok (data, reasons) <->
  exists outcomes, Forall2 (fun tr o => process_transition knn asort cutoff tr = Ok o) ts outcomes /\
    data = flat_map (fun o => match o with inr d => [d] | inl _ => [] end) outcomes /\
    reasons = flat_map (fun o => match o with inl r => [r] | inr _ => [] end) outcomes.
Proof.
  revert data reasons. induction ts as [|tr ts IH]; intros data reasons; cbn.
  - split.
    + intros H. injection H as <- <-. exists []. auto.
    + intros (o & F & -> & ->). inversion F; subst. auto.
  - destruct (process_transition knn asort cutoff tr) as [o|e|] eqn:E; cbn [bind].
    2,3: split; [discriminate|]; intros (os & F & _); inversion F; subst; congruence.
    split.
    + destruct o as [r|d]; cbn [bind]; destruct (transitions_to_datapoints knn asort cutoff false ts) as [[da re]|e|] eqn:ET; try discriminate;
        cbn; intros H; injection H as <- <-; destruct (proj1 (IH da re) eq_refl) as (os & F & -> & ->); eexists (_ :: os);
        (split; [constructor; eauto|]); split; auto.
    + intros (os & F & -> & ->). inversion F as [|? o' ? os' E' F' E1 E2]; subst. rewrite E in E'. injection E' as <-.
      destruct (IH (flat_map (fun o => match o with inr d => [d] | inl _ => [] end) os')
                   (flat_map (fun o => match o with inl r => [r] | inr _ => [] end) os')) as [_ I].
      destruct o as [r|d]; cbn [bind]; rewrite I by eauto; auto.
Qed.
Print Assumptions everything_counted.
Theorem counts_add_up knn asort cutoff plot ts data reasons :
  transitions_to_datapoints knn asort cutoff plot ts = Ok (data, reasons) ->
  (length data + length reasons = length ts)%nat.
Proof.
  revert data reasons. induction ts as [|tr ts IH]; intros data reasons; cbn.
  - intros H. injection H as <- <-. auto.
  - destruct (process_transition knn asort cutoff tr) as [[r|d]|e|]; cbn [bind]; try discriminate.
    + destruct (transitions_to_datapoints knn asort cutoff plot ts) as [[da re]|e|]; cbn; try discriminate.
      intros H. injection H as <- <-. specialize (IH _ _ eq_refl). cbn. lia.
    + destruct plot; cbn [bind plot_transition]; try discriminate.
      destruct (transitions_to_datapoints knn asort cutoff false ts) as [[da re]|e|]; cbn; try discriminate.
      intros H. injection H as <- <-. specialize (IH _ _ eq_refl). cbn. lia.
Qed.
Print Assumptions counts_add_up.

(** C86 refuted: one would expect plots not to matter.  They raise a TypeError as soon as one
    transition is learned from, so with plots there never is any data *)
Theorem plotting_fails_refuted knn asort cutoff ts :
  (forall data reasons, transitions_to_datapoints knn asort cutoff true ts = Ok (data, reasons) <->
     data = [] /\ transitions_to_datapoints knn asort cutoff false ts = Ok ([], reasons)) /\
  (forall d data reasons, transitions_to_datapoints knn asort cutoff false ts = Ok (d :: data, reasons) ->
     transitions_to_datapoints knn asort cutoff true ts = Raise TypeError).
Proof.
  split.
  - induction ts as [|tr ts IH]; intros data reasons; cbn.
    + split; [intros H; injection H as <- <-; auto|intros [-> H]; auto].
    + destruct (process_transition knn asort cutoff tr) as [[r|d]|e|]; cbn [bind plot_transition].
      * destruct (transitions_to_datapoints knn asort cutoff true ts) as [[da re]|e|] eqn:E1;
        destruct (transitions_to_datapoints knn asort cutoff false ts) as [[da' re']|e'|] eqn:E2; cbn.
        -- destruct (proj1 (IH da re) eq_refl) as [-> X]. injection X as -> ->. split; [intros H; injection H as <- <-; auto|intros [-> H]; auto].
        -- destruct (proj1 (IH da re) eq_refl) as [_ X]; discriminate.
        -- destruct (proj1 (IH da re) eq_refl) as [_ X]; discriminate.
        -- split; [discriminate|]. intros [-> H]. injection H as -> <-. assert (X := proj2 (IH [] re') (conj eq_refl eq_refl)). discriminate.
        -- split; [discriminate|]. intros [_ H]; discriminate.
        -- split; [discriminate|]. intros [_ H]; discriminate.
        -- split; [discriminate|]. intros [-> H]. injection H as -> <-. assert (X := proj2 (IH [] re') (conj eq_refl eq_refl)). discriminate.
        -- split; [discriminate|]. intros [_ H]; discriminate.
        -- split; [discriminate|]. intros [_ H]; discriminate.
      * split; [discriminate|]. intros [_ H]. destruct (transitions_to_datapoints knn asort cutoff false ts) as [[da' re']|e'|]; discriminate.
      * split; [discriminate|]. intros [_ H]; discriminate.
      * split; [discriminate|]. intros [_ H]; discriminate.
  - induction ts as [|tr ts IH]; intros d data reasons; cbn; [discriminate|].
    destruct (process_transition knn asort cutoff tr) as [[r|d']|e|]; cbn [bind plot_transition]; auto; try discriminate.
    destruct (transitions_to_datapoints knn asort cutoff false ts) as [[da' re']|e'|] eqn:E2; cbn; try discriminate.
    intros H. injection H as -> <-. rewrite (IH _ _ _ eq_refl). auto.
Qed.
Print Assumptions plotting_fails_refuted.

(** A transition that meets the hypotheses, a silicon that jumps to one of its
    three neighbours, is jump_nonvacuous in RateSetProps. *)
