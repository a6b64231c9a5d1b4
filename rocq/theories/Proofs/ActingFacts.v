(** Lemmas about action adapters. *)
From Coq Require Import Reals ZArith List Bool Lia Lra Arith.
From Flocq Require Import Core.
From Verif Require Import Base.Prelude Base.Rounding Base.Random Model.Constants Model.MicroscopeUtils
  Model.Graphene Model.ActionAdapters Model.Goals Spec.Grids Spec.Material Spec.Acting
  Proofs.BaseFacts Proofs.RoundingFacts Proofs.FovFacts Proofs.MaterialFacts.
Import ListNotations.
Open Scope R_scope.

Lemma clip_limited x lo hi : lo <= hi -> limited_to lo hi x (clip x lo hi).
Proof.
  intros H. unfold limited_to. destruct (Rlt_le_dec x lo); [left|].
  - split; auto. apply clip_low; lra.
  - destruct (Rlt_le_dec hi x); [right; right|right; left]; split; auto; [apply clip_high; lra|apply clip_id; lra].
Qed.
Lemma limited_clip x y lo hi : lo <= hi -> (limited_to lo hi x y <-> y = clip x lo hi).
Proof.
  intros H. split; [|intros ->; apply clip_limited; auto].
  intros [(A & ->)|[(A & ->)|(A & ->)]]; symmetry; [apply clip_low|apply clip_id|apply clip_high]; lra.
Qed.
Lemma limited_range lo hi x y : lo <= hi -> limited_to lo hi x y -> lo <= y <= hi.
Proof. intros H L. apply limited_clip in L; auto. subst. apply clip_range; auto. Qed.
Lemma limited_id lo hi x y : lo <= x <= hi -> limited_to lo hi x y -> y = x.
Proof. intros H [(A & ->)|[(A & ->)|(A & ->)]]; lra. Qed.
Lemma pclip_limited p q : point_limited_to 0 1 p q <-> q = pclip p 0 1.
Proof.
  unfold point_limited_to, pclip. rewrite !limited_clip by lra. split.
  - intros [A B]. apply pt_eq; auto.
  - intros ->. auto.
Qed.
Lemma pclip_in_view p : in_view (pclip p 0 1).
Proof. split; apply clip_range; lra. Qed.
Lemma pclip_id p : in_view p -> pclip p 0 1 = p.
Proof. intros [A B]. apply pt_eq; simpl; apply clip_id; auto. Qed.

Lemma silicon_positions_length g : wf_grid g -> length (get_silicon_positions g) = count_number 14 g.
Proof.
  unfold wf_grid, get_silicon_positions, count_number, silicon_mask. destruct g as [ps ns]; simpl.
  revert ps. induction ns as [|z ns IH]; intros [|p ps] L; try discriminate; auto.
  injection L as L. cbn [map mask_select count_occ]. specialize (IH ps L).
  destruct (Z.eqb_spec SILICON z) as [<-|N]; destruct (Z.eq_dec _ 14) as [E|E]; cbn [length]; auto.
  - exfalso. apply E. reflexivity.
  - exfalso. apply N. symmetry. exact E.
Qed.

Lemma lone_silicon_iff g p : wf_grid g -> (lone_silicon g p <-> get_silicon_positions g = [p]).
Proof.
  intros W. unfold lone_silicon. rewrite <- silicon_positions_length, <- silicon_positions_In by auto.
  destruct (get_silicon_positions g) as [|a [|b l]]; simpl; split; try discriminate; try tauto.
  - intros [_ [->|[]]]. reflexivity.
  - intros E. injection E as ->. auto.
  - intros [E _]. discriminate.
Qed.

Lemma the_silicon_spec o : wf_grid (o_grid o) ->
  (exists p, the_silicon o = Ok p /\ lone_silicon (o_grid o) p) \/
  (the_silicon o = Raise RuntimeError /\ count_number 14 (o_grid o) <> 1%nat).
Proof.
  intros W. unfold the_silicon. rewrite <- (silicon_positions_length _ W).
  destruct (get_silicon_positions (o_grid o)) as [|a [|b l]] eqn:E.
  - right. split; [reflexivity|]. simpl. lia.
  - left. exists a. split; auto. apply lone_silicon_iff; auto.
  - right. split; [reflexivity|]. simpl. lia.
Qed.

Lemma lone_unique g p q : wf_grid g -> lone_silicon g p -> lone_silicon g q -> p = q.
Proof. intros W A B. apply lone_silicon_iff in A; auto. apply lone_silicon_iff in B; auto. congruence. Qed.
Lemma lone_count g p : lone_silicon g p -> count_number 14 g = 1%nat.
Proof. intros []; auto. Qed.

Lemma lone_single g p : wf_grid g -> lone_silicon g p -> get_single_silicon_position g = Ok p.
Proof. intros W L. apply lone_silicon_iff in L; auto. unfold get_single_silicon_position. rewrite L. reflexivity. Qed.

Lemma fixed_dwell_value : fixed_dwell = 1500000%Z.
Proof.
  unfold fixed_dwell, td_seconds, round_half_even. replace (3 / 2 * 1000000) with (IZR 1500000) by lra.
  apply Znearest_imp. replace (IZR 1500000 - IZR 1500000) with 0 by lra. rewrite Rabs_R0. lra.
Qed.

Lemma rhe_IZR n : round_half_even (IZR n) = n.
Proof.
  unfold round_half_even. apply Znearest_imp. replace (IZR n - IZR n) with 0 by lra. rewrite Rabs_R0. lra.
Qed.
Lemma rhe_mono x y : x <= y -> (round_half_even x <= round_half_even y)%Z.
Proof. intros H. unfold round_half_even. apply (Zrnd_le ZnearestE); auto. Qed.

Lemma relative_dwell_spec lo hi dist a :
  (forall t, relative_dwell (new_relative lo hi dist) a = Ok t <-> dwell_of lo hi a t) /\
  (forall e, relative_dwell (new_relative lo hi dist) a = Raise e <->
     e = IndexError /\ lo <> hi /\ (length a < 3)%nat) /\
  relative_dwell (new_relative lo hi dist) a <> OutOfFuel.
Proof.
  unfold relative_dwell, new_relative, dwell_of. cbn [rel_fixed_dwell_time rel_min_dwell_seconds rel_max_dwell_seconds].
  destruct (Z.eqb_spec lo hi) as [->|N].
  - unfold td_seconds, total_seconds. replace (IZR hi / 1000000 * 1000000) with (IZR hi) by lra. rewrite rhe_IZR.
    split; [|split; [|discriminate]].
    + intros t. split; [intros K; injection K as <-; auto 10|].
      intros [(_ & ->)|(K & _)]; [reflexivity|tauto].
    + intros e. split; [discriminate|tauto].
  - assert (Q : forall z, td_seconds (clip z 0 1 * (total_seconds hi - total_seconds lo) + total_seconds lo) =
       round_half_even (clip z 0 1 * (IZR hi - IZR lo) + IZR lo)).
    { intros z. unfold td_seconds, total_seconds. f_equal. field. }
    destruct (nth_error a 2) as [x|] eqn:E.
    + assert (L : (2 < length a)%nat) by (apply nth_error_Some; congruence).
      split; [|split; [|discriminate]].
      * intros t. split.
        -- intros K. injection K as <-. right. split; auto. exists x, (clip x 0 1). split; auto.
           split; [apply clip_limited; lra|apply Q].
        -- intros [(K & _)|(_ & x' & y & K & Ly & ->)]; [tauto|]. injection K as <-.
           apply limited_clip in Ly; [|lra]. subst y. rewrite Q. reflexivity.
      * intros e. split; [discriminate|]. intros (_ & _ & K). lia.
    + apply nth_error_None in E. split; [|split; [|discriminate]].
      * intros t. split; [discriminate|]. intros [(K & _)|(_ & x' & y & K & _)]; [tauto|discriminate].
      * intros e. split; [intros K; injection K as <-; repeat split; auto; lia|intros (-> & _); reflexivity].
Qed.

Lemma broadcast_offsets (h : R -> R) a :
  (forall p, broadcast2 (map h (firstn 2 a)) = Ok p <-> exists dx dy, offsets a dx dy /\ p = mkpt (h dx) (h dy)) /\
  (forall e, broadcast2 (map h (firstn 2 a)) = Raise e <-> e = ValueError /\ a = []) /\
  broadcast2 (map h (firstn 2 a)) <> OutOfFuel.
Proof.
  unfold offsets. destruct a as [|x [|y l]]; cbn [firstn map broadcast2]; (split; [|split; [|discriminate]]).
  - intros p. split; [discriminate|]. intros (dx & dy & [[K _]|[r K]] & _); discriminate.
  - intros e. split; [intros K; injection K as <-; auto|intros [-> _]; reflexivity].
  - intros p. split.
    + intros K. injection K as <-. exists x, x. auto.
    + intros (dx & dy & [[K ->]|[r K]] & ->); [injection K as <-; reflexivity|discriminate].
  - intros e. split; [discriminate|intros [_ K]; discriminate].
  - intros p. split.
    + intros K. injection K as <-. exists x, y. split; eauto.
    + intros (dx & dy & [[K _]|[r K]] & ->); [discriminate|injection K as <- <- _; reflexivity].
  - intros e. split; [discriminate|intros [_ K]; discriminate].
Qed.

(** the relative adapter, completely *)
Lemma relative_spec lo hi dist o a : wf_grid (o_grid o) ->
  let r := relative_get_action (new_relative lo hi dist) o a in
  (forall cs, r = Ok cs <-> exists si dx dy ex ey q t,
     lone_silicon (o_grid o) si /\ width (o_fov o) <> 0 /\ height (o_fov o) <> 0 /\
     offsets a dx dy /\ limited_to (-1) 1 dx ex /\ limited_to (-1) 1 dy ey /\
     point_limited_to 0 1 (mkpt (px si + ex * (dist / width (o_fov o))) (py si + ey * (dist / height (o_fov o)))) q /\
     dwell_of lo hi a t /\ cs = [aimed_for q t]) /\
  (forall e, r = Raise e <->
     (e = RuntimeError /\ count_number 14 (o_grid o) <> 1%nat) \/
     (e = ZeroDivisionError /\ count_number 14 (o_grid o) = 1%nat /\ (width (o_fov o) = 0 \/ height (o_fov o) = 0)) \/
     (e = ValueError /\ count_number 14 (o_grid o) = 1%nat /\ width (o_fov o) <> 0 /\ height (o_fov o) <> 0 /\ a = []) \/
     (e = IndexError /\ count_number 14 (o_grid o) = 1%nat /\ width (o_fov o) <> 0 /\ height (o_fov o) <> 0 /\
        lo <> hi /\ (1 <= length a < 3)%nat)) /\
  r <> OutOfFuel.
Proof.
  intros W r. subst r. unfold relative_get_action. cbn [rel_max_distance new_relative].
  fold (width (o_fov o)) (height (o_fov o)).
  change (mkrelative (lo =? hi)%Z (total_seconds lo) (total_seconds hi) dist) with (new_relative lo hi dist).
  destruct (relative_dwell_spec lo hi dist a) as (D1 & D2 & D3).
  destruct (broadcast_offsets (fun x => clip x (-1) 1) a) as (B1 & B2 & B3).
  destruct (the_silicon_spec o W) as [(si & E & L)|(E & L)]; rewrite E; cbn [bind].
  2:{ split; [|split; [|discriminate]].
      - intros cs. split; [discriminate|]. intros (si & ? & ? & ? & ? & ? & ? & K & _). exfalso. apply L, (lone_count _ _ K).
      - intros e. split; [intros K; injection K as <-; auto 10|].
        intros [[-> _]|[(_ & K & _)|[(_ & K & _)|(_ & K & _)]]]; auto; tauto. }
  pose proof (lone_count _ _ L) as Lc.
  destruct (Reqb (width (o_fov o)) 0) eqn:Ew.
  { apply Reqb_true in Ew. cbn [orb]. split; [|split; [|discriminate]].
    - intros cs. split; [discriminate|]. intros (si' & ? & ? & ? & ? & ? & ? & _ & K & _). tauto.
    - intros e. split; [intros K; injection K as <-; auto 10|].
      intros [[-> ?]|[(-> & _)|[(-> & ? & ? & _)|(-> & ? & ? & _)]]]; auto; tauto. }
  apply Reqb_false in Ew. cbn [orb].
  destruct (Reqb (height (o_fov o)) 0) eqn:Eh.
  { apply Reqb_true in Eh. split; [|split; [|discriminate]].
    - intros cs. split; [discriminate|]. intros (si' & ? & ? & ? & ? & ? & ? & _ & _ & K & _). tauto.
    - intros e. split; [intros K; injection K as <-; auto 10|].
      intros [[-> ?]|[(-> & _)|[(-> & ? & ? & ? & _)|(-> & ? & ? & ? & _)]]]; auto; tauto. }
  apply Reqb_false in Eh.
  destruct (broadcast2 (map (fun x => clip x (-1) 1) (firstn 2 a))) as [p|e|] eqn:Eb; [| |tauto]; cbn [bind].
  2:{ destruct (proj1 (B2 e) eq_refl) as (-> & Ea). split; [|split; [|discriminate]].
      - intros cs. split; [discriminate|]. intros (? & dx & dy & ? & ? & ? & ? & _ & _ & _ & K & _). subst a.
        destruct K as [[K _]|[? K]]; discriminate.
      - intros e. split; [intros K; injection K as <-; auto 10|].
        intros [[-> ?]|[(-> & _ & [?|?])|[(-> & _)|(-> & ? & ? & ? & ? & K)]]]; auto; try tauto. subst a; simpl in K; lia. }
  destruct (proj1 (B1 p) eq_refl) as (dx & dy & Of & ->).
  assert (La : (1 <= length a)%nat) by (destruct Of as [[-> _]|[r ->]]; simpl; lia).
  destruct (relative_dwell (new_relative lo hi dist) a) as [t|e|] eqn:Ed; [| |tauto]; cbn [bind].
  2:{ destruct (proj1 (D2 e) eq_refl) as (-> & Nd & Ld). split; [|split; [|discriminate]].
      - intros cs. split; [discriminate|]. intros (? & ? & ? & ? & ? & ? & t & _ & _ & _ & _ & _ & _ & _ & K & _).
        apply D1 in K. discriminate.
      - intros e. split; [intros K; injection K as <-; repeat right; auto 10|].
        intros [[-> ?]|[(-> & _ & [?|?])|[(-> & ? & ? & ? & K)|(-> & _)]]]; auto; try tauto. subst a; simpl in La; lia. }
  destruct (D1 t) as [Dt _]. specialize (Dt eq_refl).
  split; [|split; [|discriminate]].
  - intros cs. split.
    + intros K. injection K as <-. exists si, dx, dy, (clip dx (-1) 1), (clip dy (-1) 1).
      eexists. exists t. repeat (split; [solve [auto | apply clip_limited; lra]|]).
      split; [apply pclip_limited; reflexivity|]. auto.
    + intros (si' & dx' & dy' & ex & ey & q & t' & L' & _ & _ & Of' & Lx & Ly & Lq & Dt' & ->).
      assert (si' = si) by (eapply lone_unique; eauto). subst si'.
      assert (dx' = dx /\ dy' = dy) as [-> ->].
      { destruct Of as [[-> ->]|[r ->]], Of' as [[K1 K2]|[r' K]]; try discriminate.
        - injection K1 as ->. auto.
        - injection K as -> ->. auto. }
      apply limited_clip in Lx; [|lra]. apply limited_clip in Ly; [|lra]. subst ex ey.
      apply pclip_limited in Lq. subst q. apply D1 in Dt'. assert (t' = t) by congruence. subst t'. reflexivity.
  - intros e. split; [discriminate|].
    intros [[-> ?]|[(-> & _ & [?|?])|[(-> & ? & ? & ? & K)|(-> & _ & _ & _ & ? & ?)]]]; try tauto.
    + subst a; simpl in La; lia.
    + assert (K : Ok t = Raise IndexError) by (apply D2; repeat split; auto; lia). discriminate.
Qed.

(** the material frame adapter, completely *)
Lemma material_frame_spec lo hi dist o a : wf_grid (o_grid o) ->
  let r := material_frame_get_action (new_relative lo hi dist) o a in
  (forall cs, r = Ok cs <-> exists si dx dy q t,
     lone_silicon (o_grid o) si /\ offsets a dx dy /\
     point_limited_to 0 1 (relative_to (o_fov o) (padd (at_relative (o_fov o) si) (mkpt dx dy))) q /\
     dwell_of lo hi a t /\ cs = [aimed_for q t]) /\
  (forall e, r = Raise e <->
     (e = RuntimeError /\ count_number 14 (o_grid o) <> 1%nat) \/
     (e = ValueError /\ count_number 14 (o_grid o) = 1%nat /\ a = []) \/
     (e = IndexError /\ count_number 14 (o_grid o) = 1%nat /\ lo <> hi /\ (1 <= length a < 3)%nat)) /\
  r <> OutOfFuel.
Proof.
  intros W r. subst r. unfold material_frame_get_action.
  destruct (relative_dwell_spec lo hi dist a) as (D1 & D2 & D3).
  destruct (broadcast_offsets (fun x => x) a) as (B1 & B2 & B3). rewrite map_id in *.
  destruct (the_silicon_spec o W) as [(si & E & L)|(E & L)]; rewrite E; cbn [bind].
  2:{ split; [|split; [|discriminate]].
      - intros cs. split; [discriminate|]. intros (si & ? & ? & ? & ? & K & _). exfalso. apply L, (lone_count _ _ K).
      - intros e. split; [intros K; injection K as <-; auto 10|].
        intros [[-> _]|[(_ & K & _)|(_ & K & _)]]; auto; tauto. }
  pose proof (lone_count _ _ L) as Lc.
  destruct (broadcast2 (firstn 2 a)) as [p|e|] eqn:Eb; [| |tauto]; cbn [bind].
  2:{ destruct (proj1 (B2 e) eq_refl) as (-> & Ea). split; [|split; [|discriminate]].
      - intros cs. split; [discriminate|]. intros (? & dx & dy & ? & ? & _ & K & _). subst a.
        destruct K as [[K _]|[? K]]; discriminate.
      - intros e. split; [intros K; injection K as <-; auto 10|].
        intros [[-> ?]|[(-> & _)|(-> & ? & ? & K)]]; auto; try tauto. subst a; simpl in K; lia. }
  destruct (proj1 (B1 p) eq_refl) as (dx & dy & Of & ->).
  assert (La : (1 <= length a)%nat) by (destruct Of as [[-> _]|[r ->]]; simpl; lia).
  destruct (relative_dwell (new_relative lo hi dist) a) as [t|e|] eqn:Ed; [| |tauto]; cbn [bind].
  2:{ destruct (proj1 (D2 e) eq_refl) as (-> & Nd & Ld). split; [|split; [|discriminate]].
      - intros cs. split; [discriminate|]. intros (? & ? & ? & ? & t & _ & _ & _ & K & _).
        apply D1 in K. discriminate.
      - intros e. split; [intros K; injection K as <-; repeat right; auto 10|].
        intros [[-> ?]|[(-> & ? & K)|(-> & _)]]; auto; try tauto. subst a; simpl in La; lia. }
  destruct (D1 t) as [Dt _]. specialize (Dt eq_refl).
  split; [|split; [|discriminate]].
  - intros cs. split.
    + intros K. injection K as <-. exists si, dx, dy. eexists. exists t. split; [auto|]. split; [auto|].
      split; [apply pclip_limited; rewrite <- to_material_pt_eq; reflexivity|]. auto.
    + intros (si' & dx' & dy' & q & t' & L' & Of' & Lq & Dt' & ->).
      assert (si' = si) by (eapply lone_unique; eauto). subst si'.
      assert (dx' = dx /\ dy' = dy) as [-> ->].
      { destruct Of as [[-> ->]|[r ->]], Of' as [[K1 K2]|[r' K]]; try discriminate.
        - injection K1 as ->. auto.
        - injection K as -> ->. auto. }
      apply pclip_limited in Lq. subst q. apply D1 in Dt'. assert (t' = t) by congruence. subst t'.
      rewrite <- to_material_pt_eq. reflexivity.
  - intros e. split; [discriminate|].
    intros [[-> ?]|[(-> & ? & K)|(-> & _ & ? & ?)]]; try tauto.
    + subst a; simpl in La; lia.
    + assert (K : Ok t = Raise IndexError) by (apply D2; repeat split; auto; lia). discriminate.
Qed.

Lemma central_unique g p q : central_silicon g p -> central_silicon g q -> p = q.
Proof.
  intros (l & i & S & Ei & H) (l' & i' & S' & Ei' & H'). rewrite (selects_fun _ _ _ _ S' S) in *. clear S S' l'.
  destruct (H _ _ Ei') as [A1 A2]. destruct (H' _ _ Ei) as [B1 B2].
  destruct (lt_eq_lt_dec i i') as [[K|K]|K].
  - specialize (B2 K). lra.
  - subst i'. congruence.
  - specialize (A2 K). lra.
Qed.

Lemma central_iff g p : wf_grid g -> (get_single_silicon_position g = Ok p <-> central_silicon g p).
Proof.
  intros W. assert (Hex : (exists q, In (q, 14%Z) (atoms g)) -> exists q, get_single_silicon_position g = Ok q /\ central_silicon g q).
  { intros E. destruct (single_silicon_ok g W E) as (i & q & E1 & E2 & E3). exists q. split; auto.
    destruct (silicon_positions_select g W) as (l & S & El). exists l, i. rewrite <- El. auto. }
  split.
  - intros E. destruct (silicon_positions_select g W) as (l & S & El).
    assert (N : exists q, In (q, 14%Z) (atoms g)).
    { destruct (get_silicon_positions g) as [|q r] eqn:E'.
      - unfold get_single_silicon_position in E. rewrite E' in E. discriminate.
      - exists q. apply silicon_positions_In; auto. rewrite E'. left; auto. }
    destruct (Hex N) as (q & Eq & Cq). assert (q = p) by congruence. subst q. exact Cq.
  - intros C. assert (N : exists q, In (q, 14%Z) (atoms g)).
    { destruct C as (l & i & S & Ei & _). apply nth_error_In in Ei. apply in_map_iff in Ei as ([q z] & _ & Hq).
      apply (selects_In _ _ _ S) in Hq as [Hq Hz]. simpl in Hz. subst z. eauto. }
    destruct (Hex N) as (q & Eq & Cq). rewrite Eq. f_equal. eapply central_unique; eauto.
Qed.

Lemma single_silicon_cases g : wf_grid g ->
  (exists p, get_single_silicon_position g = Ok p /\ central_silicon g p /\ (1 <= count_number 14 g)%nat) \/
  (get_single_silicon_position g = Raise SiliconNotFoundError /\ count_number 14 g = 0%nat).
Proof.
  intros W. rewrite <- silicon_positions_length by auto.
  destruct (get_silicon_positions g) as [|q r] eqn:E.
  - right. split; [|reflexivity]. unfold get_single_silicon_position. rewrite E. reflexivity.
  - left. destruct (single_silicon_ok g W) as (i & p & Ep & _).
    { exists q. apply silicon_positions_In; auto. rewrite E. left; auto. }
    exists p. split; auto. split; [apply central_iff; auto|simpl; lia].
Qed.

Lemma lone_central g p : wf_grid g -> lone_silicon g p -> central_silicon g p.
Proof. intros W L. apply central_iff; auto. apply lone_single; auto. Qed.

Lemma central_count g p : central_silicon g p -> (1 <= count_number 14 g)%nat.
Proof.
  intros (l & i & S & Ei & _). apply nth_error_In in Ei. apply in_map_iff in Ei as ([q z] & _ & Hq).
  apply (selects_In _ _ _ S) in Hq as [Hq Hz]. simpl in Hz. subst z. unfold count_number.
  apply (count_occ_In Z.eq_dec). apply in_combine_r in Hq. exact Hq.
Qed.

Lemma goal_distance_angstroms f p q : goal_distance f q p = angstroms f p q.
Proof.
  unfold goal_distance, angstroms, pdist. f_equal. unfold psub, pmul, at_relative, width, height. cbn [px py].
  apply pt_eq; cbn; ring.
Qed.

Lemma valid_goals_spec o si : wf_grid (o_grid o) ->
  exists l, goal_candidates o si l /\ valid_goals o si = map fst l.
Proof.
  intros W. unfold valid_goals, goal_candidates, atoms.
  exists (filter (fun a => valid_goal (o_fov o) si (fst a)) (combine (positions (o_grid o)) (numbers (o_grid o)))).
  split.
  - apply selects_filter. intros [p z]. cbn [fst]. unfold valid_goal, goal_range. cbn [fst snd].
    rewrite andb_true_iff, !Rltb_true, goal_distance_angstroms. tauto.
  - rewrite mask_select_filter. unfold wf_grid in W. revert W. generalize (positions (o_grid o)) (numbers (o_grid o)).
    induction l as [|p l IH]; intros [|z ns] W; try discriminate; [reflexivity|]. cbn [combine filter fst].
    injection W as W. rewrite (IH ns W). destruct (valid_goal _ _ _); reflexivity.
Qed.

Lemma discounted_eq t : discount_of t = discounted t.
Proof. reflexivity. Qed.

Lemma discounted_range t : (0 <= t)%Z -> 0 < discounted t <= 1.
Proof.
  intros H. unfold discounted, Rpower. split; [apply exp_pos|].
  rewrite <- exp_0 at 1. assert (L : IZR t / 1000000 * ln (9967 / 10000) <= 0).
  { assert (0 <= IZR t) by (apply IZR_le; auto). assert (ln (9967 / 10000) < 0).
    { rewrite <- ln_1. apply ln_increasing; lra. }
    assert (0 <= IZR t / 1000000) by lra. nra. }
  destruct (Rle_lt_or_eq_dec _ _ L) as [K|K].
  - left. apply exp_increasing; auto.
  - rewrite K. lra.
Qed.
