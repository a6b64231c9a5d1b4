(** C109, C110: uploading what the microscope has saved *)
From Coq Require Import Reals ZArith List Bool Arith Lia Lra Ascii String.
From Verif Require Import Base.Prelude Base.Rounding Model.MicroscopeUtils Model.Io Model.Upload Spec.Records Spec.Protos Spec.Grids
  Proofs.BaseFacts Proofs.MaterialFacts Proofs.RoundingFacts Props.Serialisation Props.IoProps Spec.Upload.
Import ListNotations.
Open Scope R_scope.

(** * loading *)
Definition factor_of (d : dataset) (la : labels) : R := INR (st_height (ds_images d)) / INR (la_height la).

(** a frame with everything, and one where something is missing *)
Definition complete (e : entry) (dopants beam : list pt) (dwell : option R) (shifts : pt) : Prop :=
  en_dopants e = Some dopants /\ en_beam e = Some beam /\ en_dwell e = Some dwell /\ en_intensities e <> None /\ en_shifts e = Some shifts.
Definition incomplete (e : entry) : Prop :=
  en_dopants e = None \/ en_beam e = None \/ en_dwell e = None \/ en_intensities e = None \/ en_shifts e = None.

Lemma load_frame_ok factor e f : load_frame factor e = Ok f ->
  en_coordinates e <> None /\ en_fov e = Some (fr_fov f) /\
  (forall l, en_coordinates e = Some l -> fr_image f = map (pscale factor) l) /\
  (forall dopants beam dwell shifts, complete e dopants beam dwell shifts ->
     fr_dopants f = map (fun p => Some (pscale factor p)) dopants /\ fr_beam f = map (fun p => Some (pscale factor p)) beam /\ fr_dwell f = dwell /\ fr_shifts f = shifts) /\
  (incomplete e -> fr_dopants f = [None] /\ fr_beam f = [None] /\ fr_dwell f = None /\ fr_shifts f = pzero).
Proof.
  unfold load_frame, get_key. destruct (en_coordinates e) as [l|]; [|discriminate]. destruct (en_fov e) as [v|]; [|discriminate]. cbn [bind].
  unfold complete, incomplete, measurements. destruct (en_dopants e) as [dp|], (en_beam e) as [bm|], (en_dwell e) as [dw|], (en_intensities e) as [ii|], (en_shifts e) as [sh|]; intros E; injection E as <-; cbn;
    (split; [discriminate|]); (split; [auto|]); (split; [intros l' E; congruence|]); split;
    try (intros dopants beam dwell shifts (E1 & E2 & E3 & E4 & E5); first [congruence|injection E1 as <-; injection E2 as <-; injection E3 as <-; injection E5 as <-; auto]);
    try (intros _; auto; fail); intuition discriminate.
Qed.

(** C109: what is loaded: no more images than metadata, everything in pixels of the images; a frame where a
    measurement is missing has no dopant, no beam and no shift *)
Theorem dataset_loaded d s frames : load_dataset d = Ok (s, frames) ->
  exists la, ds_labels d = Some la /\ (la_height la <> 0)%nat /\
    st_images s = firstn (length (la_metadata la)) (st_images (ds_images d)) /\
    st_height s = st_height (ds_images d) /\ st_width s = st_width (ds_images d) /\ st_channels s = st_channels (ds_images d) /\
    (exists k e r, In (k, e) (la_metadata la) /\ en_readout_time e = Some r) /\
    map fst frames = map fst (la_metadata la) /\
    forall i k e, nth_error (la_metadata la) i = Some (k, e) -> exists f, nth_error frames i = Some (k, f) /\
      en_fov e = Some (fr_fov f) /\
      (exists l, en_coordinates e = Some l /\ fr_image f = map (pscale (factor_of d la)) l) /\
      (forall dopants beam dwell shifts, complete e dopants beam dwell shifts ->
         fr_dopants f = map (fun p => Some (pscale (factor_of d la) p)) dopants /\ fr_beam f = map (fun p => Some (pscale (factor_of d la) p)) beam /\
         fr_dwell f = dwell /\ fr_shifts f = shifts) /\
      (incomplete e -> fr_dopants f = [None] /\ fr_beam f = [None] /\ fr_dwell f = None /\ fr_shifts f = pzero).
Proof.
  unfold load_dataset. destruct (ds_labels d) as [la|]; [|discriminate]. destruct (Nat.eqb_spec (la_height la) 0) as [|Nh]; [discriminate|].
  destruct (existsb _ _) eqn:Ex; [|discriminate]. cbn [st_height]. fold (factor_of d la).
  destruct (map_res _ _) as [fs|e|] eqn:Em; cbn [bind]; try discriminate. intros E. injection E as <- <-. cbn.
  exists la. split; [auto|]. split; [auto|]. do 4 (split; [auto|]). split.
  { apply existsb_exists in Ex. destruct Ex as ([k e] & Hin & He). cbn in He. destruct (en_readout_time e) as [r|] eqn:Er; [|discriminate]. eauto. }
  apply map_res_Ok in Em. clear Ex. split.
  - induction Em as [|[k e] [k' f] l l' H F IH]; [reflexivity|]. cbn in H |- *. rewrite IH. f_equal. destruct (load_frame (factor_of d la) e); [|discriminate|discriminate]. injection H as -> _. reflexivity.
  - intros i k e Hi. revert i Hi. induction Em as [|[k0 e0] [k' f] l l' H F IH]; intros [|i] Hi; try discriminate.
    + cbn in Hi. injection Hi as -> ->. cbn in H. destruct (load_frame (factor_of d la) e) as [f0|e0|] eqn:El; try discriminate. injection H as -> ->. exists f. split; [reflexivity|].
      apply load_frame_ok in El. destruct El as (A & B & C & D & G). split; [auto|]. split; [|auto]. destruct (en_coordinates e) as [lc|] eqn:Ec; [eauto|congruence].
    + apply IH. exact Hi.
Qed.

(** C109: data without a readout time is not loaded: a ValueError, if there are labels with a height *)
Theorem dataset_without_readout d la : ds_labels d = Some la -> (la_height la <> 0)%nat ->
  (forall k e, In (k, e) (la_metadata la) -> en_readout_time e = None) -> load_dataset d = Raise ValueError.
Proof.
  intros E N H. unfold load_dataset. rewrite E. destruct (Nat.eqb_spec (la_height la) 0); [congruence|].
  destruct (existsb _ _) eqn:Ex; [|reflexivity]. apply existsb_exists in Ex. destruct Ex as ([k e] & Hin & He). cbn in He. rewrite (H k e Hin) in He. discriminate.
Qed.

(** * converting *)
Lemma pt_eq a b : px a = px b -> py a = py b -> a = b.
Proof. destruct a, b. cbn. intros -> ->. reflexivity. Qed.
Lemma fraction_eq s p : pdiv p (mkpt (INR (st_height s)) (INR (st_width s))) = fraction s p.
Proof. reflexivity. Qed.
Lemma moved_eq s f : pdiv (pscale (10 * fr_fov f) (fr_shifts f)) (mkpt (INR (st_height s)) (INR (st_width s))) = moved s f.
Proof. reflexivity. Qed.
Lemma is_dopant_iff s ds p : is_dopant (map (option_map (fun p => pdiv p (mkpt (INR (st_height s)) (INR (st_width s))))) ds) p = true <->
  exists d, In (Some d) ds /\ pdist p (fraction s d) < 1 / 1000000.
Proof.
  unfold is_dopant. rewrite existsb_exists. split.
  - intros (x & Hx & H). apply in_map_iff in Hx. destruct Hx as ([d|] & <- & Hd); cbn in H; [|discriminate]. apply Rltb_true in H. exists d. auto.
  - intros (d & Hd & H). exists (Some (fraction s d)). split; [apply in_map_iff; exists (Some d); auto|]. cbv beta iota. apply Rltb_true. exact H.
Qed.
Lemma td_two : td_seconds 2 = 2000000%Z.
Proof. rewrite <- (td_total 2000000%Z). f_equal. unfold total_seconds. lra. Qed.

Lemma frame_observed s frames t im corner width o cs : convert_frame s frames t im (corner, mkpt (px corner + width) (py corner + width)) = Ok (Some (o, cs)) ->
  (3 < length frames)%nat /\ exists f, lookup_frame t frames = Ok f /\ observed s f im (padd corner (moved s f)) width o /\
    cs = (padd corner (moved s f), mkpt (px (padd corner (moved s f)) + width) (py (padd corner (moved s f)) + width)).
Proof.
  unfold convert_frame. destruct (lookup_frame t frames) as [f|e|]; cbn [bind]; try discriminate. destruct (fr_image f) as [|p0 ps] eqn:Ei; [discriminate|].
  destruct (st_channels s); [discriminate|]. rewrite <- Ei. destruct (Nat.leb_spec (length frames) 3) as [|L]; [discriminate|].
  destruct (fr_dopants f) as [|d0 ds] eqn:Ed; [discriminate|]. rewrite <- Ed. cbn [fst snd]. rewrite moved_eq. intros H. split; [lia|]. exists f. split; [reflexivity|].
  set (c := padd corner (moved s f)) in *.
  replace (padd (mkpt (px corner + width) (py corner + width)) (moved s f)) with (mkpt (px c + width) (py c + width)) in H by (unfold c; apply pt_eq; cbn; ring).
  assert (Q : exists ce, o = mkobs (mkgrid (map (fraction s) (fr_image f)) (map (fun p => if is_dopant (map (option_map (fun p => pdiv p (mkpt (INR (st_height s)) (INR (st_width s))))) (fr_dopants f)) p then 14%Z else 6%Z) (map (fraction s) (fr_image f))))
     (mkfov c (mkpt (px c + width) (py c + width))) (fst ce) (snd ce) (Some im) None /\ cs = (c, mkpt (px c + width) (py c + width)) /\
     (fr_dwell f = None -> ce = ([], td_seconds 2)) /\
     (forall place seconds, irradiated f place seconds -> ce = ([beam_control (to_material_pt (mkfov c (mkpt (px c + width) (py c + width))) (fraction s place)) (td_seconds seconds)], td_seconds (seconds + 2)))).
  { destruct (fr_dwell f) as [dw|] eqn:Edw.
    - destruct (fr_beam f) as [|[b|] bs] eqn:Eb; cbn [bind] in H; try discriminate. injection H as <- <-. exists ([beam_control (to_material_pt (mkfov c (mkpt (px c + width) (py c + width))) (fraction s b)) (td_seconds dw)], td_seconds (dw + 2)). split; [reflexivity|]. split; [reflexivity|]. split; [discriminate|].
      intros place seconds (E1 & rest & E2). rewrite Edw in E1. injection E1 as ->. rewrite Eb in E2. injection E2 as -> _. reflexivity.
    - cbn [bind] in H. injection H as <- <-. exists ([], td_seconds 2). split; [reflexivity|]. split; [reflexivity|]. split; [reflexivity|]. intros place seconds (E1 & _). congruence. }
  destruct Q as (ce & -> & -> & Q1 & Q2). split; [|reflexivity]. clear H. split; cbn [o_image o_label_image o_grid o_fov o_controls o_elapsed positions numbers lower_left upper_right].
  - auto.
  - reflexivity.
  - rewrite !map_length. reflexivity.
  - intros i p n Hp Hn. rewrite map_map in Hn. rewrite nth_error_map, Hp in Hn. cbn in Hn. injection Hn as <-.
    destruct (is_dopant _ (fraction s p)) eqn:E.
    + left. split; [reflexivity|]. apply is_dopant_iff in E. exact E.
    + right. split; [reflexivity|]. intros d Hd. apply Rnot_lt_le. intros Hl. assert (is_dopant (map (option_map (fun p => pdiv p (mkpt (INR (st_height s)) (INR (st_width s))))) (fr_dopants f)) (fraction s p) = true) by (apply is_dopant_iff; eauto). congruence.
  - auto.
  - intros Hd. rewrite (Q1 Hd). cbn. rewrite td_two. auto.
  - intros place seconds Hi. rewrite (Q2 place seconds Hi). cbn [fst snd]. split; [|reflexivity]. unfold beam_control, to_material_pt, fov_scale. cbn [lower_left upper_right]. f_equal. f_equal. apply pt_eq; cbn; ring.
Qed.

Lemma padd_assoc a b c : padd (padd a b) c = padd a (padd b c).
Proof. apply pt_eq; cbn; ring. Qed.
Lemma loop_observed s frames images : forall t corner width tr, convert_loop s frames t images (corner, mkpt (px corner + width) (py corner + width)) = Ok tr -> (3 < length frames)%nat ->
  length tr = length images /\ exists fs, length fs = length images /\
    forall i o, nth_error tr i = Some o -> exists f im, nth_error fs i = Some f /\ lookup_frame (t + i) frames = Ok f /\ nth_error images i = Some im /\
      observed s f im (padd corner (psum (map (moved s) (firstn (S i) fs)))) width o.
Proof.
  induction images as [|im images IH]; intros t corner width tr H L.
  - injection H as <-. split; [auto|]. exists []. split; [auto|]. intros [|i]; discriminate.
  - cbn [convert_loop] in H. destruct (convert_frame s frames t im _) as [[[o cs]|]|e|] eqn:Ef; cbn [bind] in H; try discriminate.
    + apply frame_observed in Ef. destruct Ef as (_ & f & El & Ho & ->).
      destruct (convert_loop s frames (S t) images _) as [rest|e|] eqn:Er; cbn [bind] in H; try discriminate. injection H as <-.
      destruct (IH _ _ _ _ Er L) as (Ln & fs & Lf & N). split; [cbn; congruence|]. exists (f :: fs). split; [cbn; congruence|]. intros [|i] o' Hi.
      * cbn in Hi. injection Hi as <-. exists f, im. rewrite Nat.add_0_r. cbn [nth_error firstn map psum fold_right]. do 3 (split; [auto|]).
        replace (padd (moved s f) pzero) with (moved s f) by (apply pt_eq; cbn; ring). exact Ho.
      * destruct (N i o' Hi) as (f' & im' & A & B & C & D). exists f', im'. cbn [nth_error]. split; [auto|]. split; [rewrite <- B; f_equal; lia|]. split; [auto|].
        rewrite firstn_cons. cbn [map psum fold_right]. rewrite <- padd_assoc. exact D.
    + exfalso. unfold convert_frame in Ef. destruct (lookup_frame t frames) as [f|e|]; cbn [bind] in Ef; try discriminate. destruct (fr_image f); [discriminate|]. destruct (st_channels s); [discriminate|].
      destruct (Nat.leb_spec (length frames) 3); [lia|]. destruct (fr_dopants f); [discriminate|]. destruct (fr_dwell f); [destruct (fr_beam f) as [|[b|] ?]|]; discriminate.
Qed.

(** C109: with more than three frames there is an observation for every image, in order; the i-th is at the
    sum of the movements so far; all are as wide as the first frame says *)
Theorem dataset_converted s frames tr : convert_dataset_to_proto s frames = Ok tr -> (3 < length frames)%nat ->
  length tr = length (st_images s) /\ exists f0 fs, lookup_frame 0 frames = Ok f0 /\ length fs = length (st_images s) /\
    forall i o, nth_error tr i = Some o -> exists f im, nth_error fs i = Some f /\ lookup_frame i frames = Ok f /\ nth_error (st_images s) i = Some im /\
      observed s f im (psum (map (moved s) (firstn (S i) fs))) (10 * fr_fov f0) o.
Proof.
  unfold convert_dataset_to_proto. destruct (lookup_frame 0 frames) as [f0|e|]; cbn [bind]; try discriminate. intros H L.
  replace (mkpt (10 * fr_fov f0) (10 * fr_fov f0)) with (mkpt (px pzero + 10 * fr_fov f0) (py pzero + 10 * fr_fov f0)) in H by (apply pt_eq; cbn; ring).
  apply loop_observed in H; auto. destruct H as (Ln & fs & Lf & N). split; [auto|]. exists f0, fs. split; [auto|]. split; [auto|].
  intros i o Hi. destruct (N i o Hi) as (f & im & A & B & C & D). exists f, im. split; [auto|]. split; [auto|]. split; [auto|].
  replace (psum (map (moved s) (firstn (S i) fs))) with (padd pzero (psum (map (moved s) (firstn (S i) fs)))) by (apply pt_eq; cbn [px py padd pzero]; ring). exact D.
Qed.

(** C109: with three frames or fewer there are no observations *)
Theorem short_dataset_empty s frames tr : convert_dataset_to_proto s frames = Ok tr -> (length frames <= 3)%nat -> tr = [].
Proof.
  unfold convert_dataset_to_proto. destruct (lookup_frame 0 frames) as [f0|e|]; cbn [bind]; try discriminate. intros H L. destruct (st_images s) as [|im images]; [injection H as <-; auto|].
  cbn [convert_loop] in H. unfold convert_frame in H. destruct (lookup_frame 0 frames) as [f|e|]; cbn [bind] in H; try discriminate. destruct (fr_image f); [discriminate|]. destruct (st_channels s); [discriminate|].
  destruct (Nat.leb_spec (length frames) 3); [|lia]. cbn in H. injection H as <-. reflexivity.
Qed.

(** C109: with more than three, the conversion succeeds exactly if every image has a frame with atoms, with
    dopants or without measurements, and with a place for the beam if it was on; and if images have no
    channels *)
Theorem dataset_convertible s frames : (3 < length frames)%nat -> st_images s <> [] ->
  ((exists tr, convert_dataset_to_proto s frames = Ok tr) <->
   st_channels s = None /\ forall t, (t < length (st_images s))%nat -> convertible s frames t).
Proof.
  intros L Ni.
  assert (S1 : forall t im cs, match convert_frame s frames t im cs with Ok (Some _) => st_channels s = None /\ convertible s frames t | Ok None => False | _ => ~ (st_channels s = None /\ convertible s frames t) end).
  { intros t im cs. unfold convert_frame, convertible. destruct (lookup_frame t frames) as [f|e|]; cbn [bind].
    2, 3: intros (_ & f & E & _); discriminate.
    destruct (fr_image f) as [|p0 ps] eqn:Ei. { intros (_ & f' & E & N & _). injection E as <-. congruence. }
    destruct (st_channels s). { intros (E & _). discriminate. }
    destruct (Nat.leb_spec (length frames) 3); [lia|].
    destruct (fr_dopants f) as [|d0 ds] eqn:Ed. { intros (_ & f' & E & _ & N & _). injection E as <-. congruence. }
    destruct (fr_dwell f) as [dw|] eqn:Edw.
    - destruct (fr_beam f) as [|[b|] bs] eqn:Eb; cbn [bind].
      1, 3: intros (_ & f' & E & _ & _ & B); injection E as <-; destruct (B dw Edw) as (pl & rest & E); congruence.
      split; [reflexivity|]. exists f. repeat split; try congruence. intros; eauto.
    - cbn [bind]. split; [reflexivity|]. exists f. repeat split; try congruence. }
  assert (S2 : forall images t cs, (exists tr, convert_loop s frames t images cs = Ok tr) <-> (forall i, (i < length images)%nat -> st_channels s = None /\ convertible s frames (t + i))).
  { induction images as [|im images IH]; intros t cs; cbn [convert_loop length].
    - split; [intros _ i Hi; lia|eauto].
    - specialize (S1 t im cs). destruct (convert_frame s frames t im cs) as [[[o cs']|]|e|]; cbn [bind].
      + specialize (IH (S t) cs'). split.
        * intros (tr & E). destruct (convert_loop s frames (S t) images cs') as [tr'|e|]; cbn [bind] in E; try discriminate. intros [|i] Hi; [rewrite Nat.add_0_r; auto|].
          rewrite Nat.add_succ_r. apply (proj1 IH ltac:(eauto)). lia.
        * intros H. destruct (proj2 IH) as (tr & E); [|rewrite E; cbn; eauto]. intros i Hi. specialize (H (S i) ltac:(lia)). rewrite Nat.add_succ_r in H. exact H.
      + destruct S1.
      + split; [intros (tr & E); discriminate|]. intros H. specialize (H 0%nat ltac:(lia)). rewrite Nat.add_0_r in H. tauto.
      + split; [intros (tr & E); discriminate|]. intros H. specialize (H 0%nat ltac:(lia)). rewrite Nat.add_0_r in H. tauto. }
  unfold convert_dataset_to_proto. split.
  - destruct (lookup_frame 0 frames) as [f0|e|]; cbn [bind]; intros H; try (destruct H; discriminate).
    assert (Q : forall i, (i < length (st_images s))%nat -> st_channels s = None /\ convertible s frames (0 + i)) by (eapply S2; exact H).
    split; [apply (Q 0%nat); destruct (st_images s); [congruence|cbn; lia]|intros; apply Q; auto].
  - intros [C H]. assert (H0 : convertible s frames 0) by (apply H; destruct (st_images s); [congruence|cbn; lia]). destruct H0 as (f0 & -> & _). cbn [bind]. apply S2. auto.
Qed.

(** C109: positions are between zero and one if they are in the image *)
Theorem positions_in_view s f im corner width o : observed s f im corner width o ->
  (forall p, In p (fr_image f) -> 0 <= px p <= INR (st_height s) /\ 0 <= py p <= INR (st_width s)) -> (0 < st_height s)%nat -> (0 < st_width s)%nat ->
  forall p, In p (positions (o_grid o)) -> 0 <= px p <= 1 /\ 0 <= py p <= 1.
Proof.
  intros O H Hh Hw p Hp. rewrite (ob_positions _ _ _ _ _ _ O) in Hp. apply in_map_iff in Hp. destruct Hp as (q & <- & Hq). destruct (H q Hq) as [Hx Hy].
  apply lt_0_INR in Hh, Hw. unfold fraction. cbn [px py].
  assert (G : forall x m, 0 < m -> 0 <= x <= m -> 0 <= x / m <= 1).
  { intros x m Hm Hx'. split; [apply Rmult_le_pos; [lra|left; apply Rinv_0_lt_compat; auto]|]. apply (Rmult_le_reg_r m); auto. unfold Rdiv. rewrite Rmult_assoc, Rinv_l by lra. lra. }
  split; apply G; auto.
Qed.

(** C109: positions come from the labels: for square images, fractions of the size of the labels *)
Theorem labels_scaled d la s frames p : ds_labels d = Some la -> load_dataset d = Ok (s, frames) -> st_width s = st_height s -> (0 < st_height s)%nat ->
  fraction s (pscale (factor_of d la) p) = mkpt (px p / INR (la_height la)) (py p / INR (la_height la)).
Proof.
  intros El H Ew Hh. apply dataset_loaded in H. destruct H as (la' & E & Nh & _ & E1 & _). rewrite El in E. injection E as <-. unfold fraction. rewrite Ew, E1. cbn. apply lt_0_INR in Hh. rewrite E1 in Hh.
  assert (0 < INR (la_height la)) by (apply lt_0_INR; lia). unfold factor_of. apply pt_eq; cbn; field; lra.
Qed.

(** C109: the place of the beam is converted once too often by everyone who reads the trajectory: the place
    is right only if it is the same after another conversion *)
Theorem beam_converted_twice_refuted s f im corner width o place seconds : observed s f im corner width o -> irradiated f place seconds ->
  exists c, o_controls o = [c] /\
    (* where the beam was, and where a reader finds it *)
    let true_place := to_material_pt (o_fov o) (fraction s place) in
    let read_place := to_material_pt (o_fov o) (c_position c) in
    c_position c = true_place /\
    (read_place = true_place <-> px true_place * (1 - width) = px corner /\ py true_place * (1 - width) = py corner).
Proof.
  intros O I. destruct (ob_beam _ _ _ _ _ _ O place seconds I) as [E _]. destruct (ob_fov _ _ _ _ _ _ O) as [E1 E2]. eexists. split; [exact E|]. cbn zeta. cbn [c_position].
  unfold to_material_pt, fov_scale. rewrite E1, E2. clear. destruct corner as [cx cy], (fraction s place) as [fx fy]. cbn. split; [apply pt_eq; cbn; ring|]. split.
  - intros Q. injection Q as Q1 Q2. split; nra.
  - intros [Q1 Q2]. apply pt_eq; cbn; nra.
Qed.
Print Assumptions dataset_loaded.
Print Assumptions dataset_without_readout.
Print Assumptions dataset_converted.
Print Assumptions short_dataset_empty.
Print Assumptions dataset_convertible.
Print Assumptions positions_in_view.
Print Assumptions labels_scaled.
Print Assumptions beam_converted_twice_refuted.

(** four frames of two atoms each, the second without measurements *)
Definition ex_entry (measured : bool) : entry :=
  mkentry (Some 1) (Some [mkpt 1 1; mkpt 2 3]) (Some 2) (if measured then Some [mkpt 2 3] else None) (Some [mkpt 2 2]) (Some (Some 3)) (Some []) (Some (mkpt 4 8)).
Definition ex_dataset : dataset :=
  mkdataset (mkstack [[[0]]; [[1]]; [[2]]; [[3]]; [[4]]] 8 8 None)
    (Some (mklabels 4 [(0%nat, ex_entry true); (1%nat, ex_entry false); (2%nat, ex_entry true); (3%nat, ex_entry true)])).
Example upload_nonvacuous : exists s frames tr, load_dataset ex_dataset = Ok (s, frames) /\ (3 < length frames)%nat /\
  convert_dataset_to_proto s frames = Ok tr /\ length tr = 4%nat.
Proof.
  eexists. eexists. eexists. split; [reflexivity|]. split; [cbn; lia|]. split; reflexivity.
Qed.
