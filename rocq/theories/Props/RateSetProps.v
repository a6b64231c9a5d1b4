(** C86: the data points do not depend on where the scene is; C87: from files to datasets *)
From Coq Require Import Reals ZArith List Bool Arith Lia Lra Permutation.
From Verif Require Import Base.Prelude Base.Rounding Model.Constants Model.Geometry Model.Graphene Model.MicroscopeUtils
  Model.Alignment Model.DataUtils Model.Io Model.Pipeline Model.RateData
  Spec.Grids Spec.Orienting Spec.RateLearning Spec.Augmenting Spec.Records Spec.Pipelines
  Proofs.BaseFacts Proofs.GeometryFacts Proofs.FovFacts Proofs.AlignFacts Proofs.NearestFacts Proofs.MaterialFacts
  Props.OrientProps Props.RateDataProps Props.PipelineProps Props.AugmentProps.
Import ListNotations.
Open Scope R_scope.

(** C86: the label is 1 if the silicon went to the neighbour nearest the beam *)
Theorem label_one f c si si' nbs d nb : describes f c si si' nbs d -> NoDup nbs -> In nb nbs -> nb <> si ->
  (forall q, In q nbs -> q <> nb -> pdist nb (at_relative f (c_position c)) < pdist q (at_relative f (c_position c))) ->
  (forall q k, In q nbs -> q <> nb -> 0 <= k -> psub q si <> pscale k (psub nb si)) ->
  (rp_next_state d = 1%nat -> pdist nb si' < pdist si si' /\ forall q, In q nbs -> pdist nb si' <= pdist q si') /\
  ((forall q, In q nbs -> q <> nb -> pdist nb si' < pdist q si') -> pdist nb si' < pdist si si' -> rp_next_state d = 1%nat).
Proof.
  intros D ND Hnb Nsi Close Apart. destruct (ds_frame _ _ _ _ _ _ D) as (a & nb' & listed & Hin & Hmin & Ht & _ & P & CC & First & L).
  cbn zeta in *.
  assert (nb' = nb) as ->.
  { destruct (pt_eq_dec nb' nb) as [|N]; auto. specialize (Close _ Hin N). specialize (Hmin _ Hnb). lra. }
  assert (F : nth_error listed 0 = Some nb).
  { apply First; auto. intros q Hq Nq (_ & Dq).
    replace (pnorm (rotate (psub q si) a) * cos 0) with (pnorm (psub q si)) in Dq by (rewrite cos_0, rotate_norm; ring).
    replace (pnorm (rotate (psub q si) a) * sin 0) with 0 in Dq by (rewrite sin_0; ring).
    assert (Pn : 0 < pnorm (psub nb si)) by (apply pdist_pos; auto).
    apply (Apart q (pnorm (psub q si) / pnorm (psub nb si)) Hq Nq).
    - apply Rmult_le_pos; [apply pnorm_nonneg|]. left. apply Rinv_0_lt_compat. auto.
    - pose proof (rotate_inv (psub q si) a) as Iq. pose proof (rotate_inv (psub nb si) a) as In'. cbn beta in Ht, Dq.
      rewrite Dq in Iq. rewrite Ht in In'. fold (pdist nb si) in Pn |- *. set (r := pnorm (psub q si)) in *. set (n := pdist nb si) in *.
      rewrite <- Iq, <- In'. unfold rotate, pscale. cbn [px py]. apply pt_eq; cbn [px py]; field; lra. }
  assert (NDl : NoDup listed) by (apply (Permutation_NoDup (Permutation_sym P)); auto).
  split.
  - intros E. destruct L as [[E0 _]|(i & q & Ei & En & Lt & Le)]; [congruence|].
    rewrite E in Ei. injection Ei as <-. rewrite F in En. injection En as <-. auto.
  - intros St Lt. destruct L as [[E0 Le]|(i & q & Ei & En & Lt' & Le)]; [specialize (Le nb Hnb); lra|].
    assert (q = nb) as ->.
    { destruct (pt_eq_dec q nb) as [|N]; auto. specialize (Le nb Hnb).
      assert (In q nbs) as Hq by (apply (Permutation_in _ P); eapply nth_error_In; eauto). specialize (St q Hq N). lra. }
    rewrite Ei. f_equal. apply (proj1 (NoDup_nth_error listed) NDl); [apply nth_error_lt in En; auto|congruence].
Qed.
Print Assumptions label_one.

(** * Rigid motions *)
Definition rigid (t : R) (v : pt) (p : pt) : pt := padd (rotate p t) v.
Lemma rigid_dist t v p q : pdist (rigid t v p) (rigid t v q) = pdist p q.
Proof.
  rewrite <- (rotate_dist p q t). unfold pdist. f_equal. unfold rigid, psub, padd. cbn. f_equal; ring.
Qed.
Lemma rigid_sub t v p q : psub (rigid t v p) (rigid t v q) = rotate (psub p q) t.
Proof. rewrite <- rotate_sub. unfold rigid, psub, padd. cbn. f_equal; ring. Qed.
Lemma take_idx_fmap {A B} (f : A -> B) (l : list A) idx :
  take_idx (map f l) idx = option_map (map f) (take_idx l idx).
Proof.
  induction idx as [|i idx IH]; auto. cbn. rewrite IH, nth_error_map. destruct (nth_error l i); auto. destruct (take_idx l idx); auto.
Qed.

Lemma at_indices_map {A B} (f : A -> B) (l : list A) idx : at_indices (map f l) idx = fmap_res (map f) (at_indices l idx).
Proof. unfold at_indices. rewrite take_idx_fmap. destruct (take_idx l idx); auto. Qed.

Lemma NoDup_taken {A} (l : list A) d idx : NoDup l -> NoDup idx -> (forall i, In i idx -> (i < length l)%nat) ->
  NoDup (map (fun i => nth i l d) idx).
Proof.
  intros ND. induction 1 as [|i idx N _ IH]; intros B; cbn; constructor.
  - intros Hin. apply in_map_iff in Hin as (j & Ej & Hj). apply N.
    replace i with j; auto. apply (proj1 (NoDup_nth l d) ND); auto; apply B; cbn; auto.
  - apply IH. intros j Hj. apply B. right. auto.
Qed.

(** the search looks at distances only *)
Definition by_distance (knn : knn_fn) : Prop := forall k pts q pts' q',
  map (fun p => pdist p q) pts = map (fun p => pdist p q') pts' -> knn k pts q = knn k pts' q'.

(** C86: moving and turning the whole scene changes nothing *)
Theorem scene_motion knn asort cutoff tr tr' c c' t v : by_distance knn -> knn_ok knn ->
  wf_grid (t_grid_before tr) -> wf_grid (t_grid_after tr) -> wf_grid (t_grid_before tr') -> wf_grid (t_grid_after tr') ->
  let move := fun a : pt * Z => (rigid t v (fst a), snd a) in
  seen_atoms (t_fov_before tr') (t_grid_before tr') = map move (seen_atoms (t_fov_before tr) (t_grid_before tr)) ->
  seen_atoms (t_fov_after tr') (t_grid_after tr') = map move (seen_atoms (t_fov_after tr) (t_grid_after tr)) ->
  t_controls tr = [c] -> t_controls tr' = [c'] ->
  at_relative (t_fov_before tr') (c_position c') = rigid t v (at_relative (t_fov_before tr) (c_position c)) ->
  c_dwell c' = c_dwell c -> c_current_na c' = c_current_na c -> c_voltage_kv c' = c_voltage_kv c ->
  NoDup (map fst (seen_atoms (t_fov_before tr) (t_grid_before tr))) ->
  process_transition knn asort cutoff tr' = process_transition knn asort cutoff tr.
Proof.
  intros BD K Wb Wa Wb' Wa' move Sb Sa Ec Ec' Bm Ed Ei Ev ND.
  unfold process_transition. rewrite Ec, Ec'. cbv zeta.
  assert (MP : forall l, map fst (map move l) = map (rigid t v) (map fst l)) by (intros l; rewrite !map_map; auto).
  assert (MN : forall l, map snd (map move l) = map snd l) by (intros l; rewrite map_map; auto).
  assert (Pb : positions (grid_to_material (t_fov_before tr') (t_grid_before tr')) = map (rigid t v) (positions (grid_to_material (t_fov_before tr) (t_grid_before tr)))).
  { rewrite <- !seen_positions by auto. rewrite Sb. apply MP. }
  assert (Pa : positions (grid_to_material (t_fov_after tr') (t_grid_after tr')) = map (rigid t v) (positions (grid_to_material (t_fov_after tr) (t_grid_after tr)))).
  { rewrite <- !seen_positions by auto. rewrite Sa. apply MP. }
  assert (Nb : numbers (grid_to_material (t_fov_before tr') (t_grid_before tr')) = numbers (grid_to_material (t_fov_before tr) (t_grid_before tr))).
  { rewrite <- !seen_numbers by auto. rewrite Sb. apply MN. }
  assert (Na : numbers (grid_to_material (t_fov_after tr') (t_grid_after tr')) = numbers (grid_to_material (t_fov_after tr) (t_grid_after tr))).
  { rewrite <- !seen_numbers by auto. rewrite Sa. apply MN. }
  rewrite seen_positions in ND by auto.
  assert (There : forall p, get_silicon_positions (grid_to_material (t_fov_before tr) (t_grid_before tr)) = [p] ->
    In p (positions (grid_to_material (t_fov_before tr) (t_grid_before tr)))).
  { intros p E. apply (mask_select_In (silicon_mask (numbers (grid_to_material (t_fov_before tr) (t_grid_before tr))))).
    unfold get_silicon_positions in E. rewrite E. left; auto. }
  unfold control_map_pos. cbn [c_position c_dwell c_current_na c_voltage_kv]. rewrite Ed, Ei, Ev, !to_material_pt_eq, Bm.
  clear Sb Sa MP MN. set (bm := at_relative (t_fov_before tr) (c_position c)) in *. clearbody bm. clear Bm.
  set (gb' := grid_to_material (t_fov_before tr') (t_grid_before tr')) in *.
  set (ga' := grid_to_material (t_fov_after tr') (t_grid_after tr')) in *.
  set (gb := grid_to_material (t_fov_before tr) (t_grid_before tr)) in *.
  set (ga := grid_to_material (t_fov_after tr) (t_grid_after tr)) in *. clearbody gb' ga' gb ga.
  unfold get_silicon_positions in *. rewrite Pb, Pa, Nb, Na, !mask_select_map.
  destruct (mask_select (silicon_mask (numbers gb)) (positions gb)) as [|si [|? ?]] eqn:Es; cbn [map]; auto.
  assert (KN : forall k pts, kneighbors knn k (map (rigid t v) pts) (rigid t v si) = kneighbors knn k pts si).
  { intros k pts. unfold kneighbors. rewrite map_length. destruct (length pts <? k)%nat; auto. f_equal. apply BD.
    rewrite map_map. apply map_ext. intros p. apply rigid_dist. }
  rewrite KN.
  destruct (kneighbors knn 10 (positions gb) si) as [idx|e|] eqn:Ek; cbn [bind]; auto.
  rewrite at_indices_map. destruct (at_indices (positions gb) idx) as [nbs|e|] eqn:Et; cbn [bind fmap_res]; auto.
  unfold at_indices in Et. destruct (take_idx (positions gb) idx) as [nbs_|] eqn:Et_; [|discriminate]. injection Et as ->. rename Et_ into Et.
  assert (DD : map (fun p => pdist (rigid t v si) p) (map (rigid t v) nbs) = map (fun p => pdist si p) nbs).
  { rewrite map_map. apply map_ext. intros. apply rigid_dist. }
  rewrite DD. destruct (is_fourfold _); auto. destruct (negb (is_threefold _)); auto. rewrite KN.
  destruct (kneighbors knn 4 (positions ga) si) as [idx'|e|]; cbn [bind]; auto.
  rewrite at_indices_map. destruct (at_indices (positions ga) idx') as [nbs'|e|]; cbn [bind fmap_res]; auto.
  destruct (at_indices (numbers ga) idx') as [ns'|e|]; cbn [bind]; auto.
  destruct (mask_select (silicon_mask (numbers ga)) (positions ga)) as [|si' [|? ?]]; cbn [map]; auto.
  destruct (negb _); auto. rewrite !firstn_map.
  assert (MM : map (fun p => rmin (map (pdist p) (map (rigid t v) nbs'))) (map (rigid t v) (firstn 4 nbs)) = map (fun p => rmin (map (pdist p) nbs')) (firstn 4 nbs)).
  { rewrite map_map. apply map_ext. intros p. f_equal. rewrite map_map. apply map_ext. intros. apply rigid_dist. }
  rewrite MM. destruct (Rltb cutoff _); auto. rewrite rigid_sub.
  assert (Dl : tl (map (fun p => psub p (rigid t v si)) (map (rigid t v) (firstn 4 nbs))) = map (fun p => rotate p t) (tl (map (fun p => psub p si) (firstn 4 nbs)))).
  { rewrite map_map. rewrite (map_ext _ (fun p => rotate (psub p si) t)) by (intros; apply rigid_sub).
    destruct (firstn 4 nbs); auto. cbn. rewrite map_map. auto. }
  rewrite Dl, standardize_invariant.
  2: { unfold kneighbors in Ek. destruct (Nat.ltb_spec (length (positions gb)) 10) as [|Ge]; [discriminate|]. injection Ek as <-.
    assert (Nn : NoDup nbs).
    { rewrite (take_idx_map (positions gb) (knn 10%nat (positions gb) si) pzero) in Et by (intros i Hi; apply (knn_range _ K _ _ _ _ Ge Hi)).
      injection Et as <-. apply NoDup_taken; auto; [apply (knn_nodup _ K); auto|]. intros i. apply (knn_range _ K); auto. }
    assert (H0 : exists nbs0, nbs = si :: nbs0).
    { pose proof (knn_length _ K _ _ si Ge) as LK. destruct (knn 10%nat (positions gb) si) as [|i l] eqn:EK; [discriminate|].
      cbn in Et. destruct (nth_error (positions gb) i) as [x|] eqn:Ex; [|discriminate]. destruct (take_idx (positions gb) l) as [r|]; [|discriminate].
      injection Et as <-. exists r. f_equal. specialize (There si eq_refl). apply In_nth_error in There as (j & Ej).
      apply pdist_zero. apply Rle_antisym; [|apply pdist_nonneg]. rewrite <- (pdist_self si).
      assert (DI : forall i p, nth_error (positions gb) i = Some p -> dist_at (positions gb) si i = pdist p si) by (intros ? ? E'; unfold dist_at; rewrite (nth_error_nth _ _ _ E'); auto).
      rewrite <- (DI _ _ Ex), <- (DI _ _ Ej).
      destruct (in_dec Nat.eq_dec j (i :: l)) as [Hj|Hj].
      - apply In_nth_error in Hj as ([|b] & Eb); [cbn in Eb; injection Eb as <-; lra|].
        apply (knn_sorted _ K 10 (positions gb) si 0 (S b)); auto; [lia|rewrite EK; auto|rewrite EK; auto].
      - apply (knn_nearest _ K 10 (positions gb) si); auto; [rewrite EK; left; auto|apply nth_error_lt in Ej; auto|rewrite EK; auto]. }
    destruct H0 as (nbs0 & ->). cbn [firstn map tl]. apply Forall_forall. intros p Hp. apply in_map_iff in Hp as (q & <- & Hq).
    inversion_clear Nn. intros Z. apply H. assert (q = si) as <-.
    { apply pdist_zero. unfold pdist. rewrite Z. apply pnorm_zero. auto. }
    rewrite <- (firstn_skipn 3 nbs0). apply in_or_app; auto. }
  destruct (standardize_beam_and_neighbors asort (psub bm si) _) as [[[beam tu] order]|e|]; cbn [bind]; auto.
  assert (TS : transition_state asort order (map (rigid t v) (firstn 4 nbs)) (rigid t v si') = transition_state asort order (firstn 4 nbs) si').
  { unfold transition_state. rewrite map_map. rewrite (map_ext _ (fun p => pdist p si')) by (intros; apply rigid_dist). auto. }
  rewrite TS. auto.
Qed.
Print Assumptions scene_motion.

Lemma sort_by_ext d d' l : (forall i, In i l -> d i = d' i) -> sort_by d l = sort_by d' l.
Proof.
  assert (I : forall i l, (forall j, In j (i :: l) -> d j = d' j) -> insert_by d i l = insert_by d' i l).
  { intros i. induction l0 as [|j l0 IH]; intros H; auto. cbn. rewrite (H i), (H j) by (cbn; auto).
    destruct (Rleb _ _); auto. f_equal. apply IH. intros k [<-|Hk]; apply H; cbn; auto. }
  induction l as [|i l IH]; intros H; auto. change (insert_by d i (sort_by d l) = insert_by d' i (sort_by d' l)).
  rewrite (IH (fun j Hj => H j (or_intror Hj))). apply I.
  intros j [<-|Hj]; [apply H; left; auto|]. apply H. right. apply (Permutation_in _ (Permutation_sym (sort_by_perm d' l))). auto.
Qed.
(** sorting by distance is such a search *)
Lemma knn_sort_by_distance : by_distance knn_sort.
Proof.
  intros k pts q pts' q' H. unfold knn_sort. assert (L : length pts = length pts') by (apply (f_equal (@length R)) in H; rewrite !map_length in H; auto).
  rewrite <- L. f_equal. apply sort_by_ext. intros i Hi. apply in_seq in Hi. unfold dist_at.
  apply (f_equal (fun l => nth_error l i)) in H. rewrite !nth_error_map in H.
  rewrite (nth_error_nth' pts pzero), (nth_error_nth' pts' pzero) in H by lia. cbn in H. congruence.
Qed.

(** * C87: stacking *)
Lemma numbers_of_Ok l r : numbers_of l = Ok r <-> l = map Some r.
Proof.
  revert r. induction l as [|[x|] l IH]; intros r; cbn.
  - split; [intros H; injection H as <-; auto|]. destruct r; [auto|discriminate].
  - destruct (numbers_of l) as [y|e|]; cbn.
    + split.
      * intros H. injection H as <-. cbn. f_equal. apply IH. auto.
      * intros H. destruct r as [|z r]; [discriminate|]. injection H as -> H. apply IH in H. congruence.
    + split; [discriminate|]. intros H. destruct r as [|z r]; [discriminate|]. injection H as -> H. apply IH in H. discriminate.
    + split; [discriminate|]. intros H. destruct r as [|z r]; [discriminate|]. injection H as -> H. apply IH in H. discriminate.
  - split; [discriminate|]. destruct r; discriminate.
Qed.
Lemma numbers_of_None l : In None l -> numbers_of l = Raise TypeError.
Proof. induction l as [|[x|] l IH]; cbn; [tauto| |auto]. intros [H|H]; [discriminate|]. rewrite IH by auto. auto. Qed.

Lemma repeat_iff (l : list R) n : (length l = n /\ forall x, In x l -> x = 0) <-> l = repeat 0 n.
Proof.
  split.
  - intros [L H]. revert n L. induction l as [|x l IH]; intros n <-; cbn; auto. f_equal; [apply H; left; auto|]. apply IH; auto. intros y Hy. apply H. right. auto.
  - intros ->. split; [apply repeat_length|]. apply repeat_spec.
Qed.

Lemma stack_row_Ok uc uv dw n d r : stack_row uc uv dw n d = Ok r <-> row uc uv dw n d r.
Proof.
  unfold stack_row. split.
  - intros H. destruct (numbers_of _) as [ctx|e|] eqn:E; try discriminate. cbn [bind] in H. injection H as <-.
    apply numbers_of_Ok in E. constructor; cbn; auto; [apply repeat_iff; auto|].
    assert (M : forall a b : list R, map Some a = map Some b -> a = b).
    { induction a as [|x a IH]; intros [|y b] H; try discriminate; auto. cbn in H. injection H as -> H. f_equal; auto. }
    assert (Hc : exists cs, (if uc then [rp_current d] else []) = map Some cs /\ if uc then exists i, rp_current d = Some i /\ cs = [i] else cs = []).
    { destruct uc; [|exists []; auto]. destruct (rp_current d) as [i|]; [exists [i]; eauto|]. destruct ctx; discriminate. }
    assert (Hv : exists vs, (if uv then [rp_voltage d] else []) = map Some vs /\ if uv then exists i, rp_voltage d = Some i /\ vs = [i] else vs = []).
    { destruct uv; [|exists []; auto]. destruct (rp_voltage d) as [i|]; [exists [i]; eauto|].
      destruct Hc as (cs & Hc & _). rewrite Hc in E. exfalso. clear - E. revert ctx E. induction cs as [|x cs IH]; intros [|y ctx] E; try discriminate.
      cbn in E. injection E as _ E. eauto. }
    destruct Hc as (cs & Ec & Hc), Hv as (vs & Ev & Hv). exists cs, vs. split; auto. split; auto.
    rewrite Ec, Ev in E. replace (if dw then [Some (rp_seconds_between d)] else []) with (map Some (if dw then [rp_seconds_between d] else [])) in E by (destruct dw; auto).
    rewrite <- !map_app in E. apply M in E. subst ctx.
    destruct uc; [destruct Hc as (i & _ & ->)|subst cs]; (destruct uv; [destruct Hv as (v & _ & ->)|subst vs]); destruct dw; auto.
  - intros [St Ti Po Ra (cs & vs & Hc & Hv & C)]. apply repeat_iff in Ra.
    assert (E : numbers_of ((if uc then [rp_current d] else []) ++ (if uv then [rp_voltage d] else []) ++ (if dw then [Some (rp_seconds_between d)] else [])) =
                Ok (cs ++ vs ++ if dw then [rp_seconds_between d] else [])).
    { apply numbers_of_Ok. rewrite !map_app.
      destruct uc; [destruct Hc as (i & -> & ->)|subst cs]; (destruct uv; [destruct Hv as (v & -> & ->)|subst vs]); destruct dw; auto. }
    cbv zeta. rewrite E. cbn [bind]. destruct r as [st ti ra po cx]. cbn in *. subst. do 2 f_equal.
    destruct uc; [destruct Hc as (i & _ & ->)|subst cs]; (destruct uv; [destruct Hv as (v & _ & ->)|subst vs]); destruct dw; auto.
Qed.
Lemma stack_row_raise uc uv dw n d e : stack_row uc uv dw n d = Raise e <-> e = TypeError /\ lacks uc uv d.
Proof.
  unfold stack_row, lacks.
  destruct uc, uv, dw, (rp_current d), (rp_voltage d); cbn; split; intros H;
    try discriminate; try (injection H as <-; split; auto; fail);
    try (destruct H as [-> _]; reflexivity); destruct H as [_ [[H1 H2]|[H1 H2]]]; discriminate.
Qed.
Lemma stack_row_fuel uc uv dw n d : stack_row uc uv dw n d <> OutOfFuel.
Proof. unfold stack_row. destruct uc, uv, dw, (rp_current d), (rp_voltage d); cbn; discriminate. Qed.

(** C87: one row for each data point, in order *)
Theorem stacking uc uv dw n data rows :
  stack_data uc uv dw n data = Ok rows <-> data <> [] /\ Forall2 (row uc uv dw n) data rows.
Proof.
  assert (S : map_res (stack_row uc uv dw n) data = Ok rows <-> Forall2 (row uc uv dw n) data rows).
  { rewrite map_res_Ok. split; induction 1; constructor; auto; apply stack_row_Ok; auto. }
  destruct data as [|d data]; [split; [discriminate|tauto]|]. unfold stack_data. rewrite S. split; [split; [discriminate|auto]|tauto].
Qed.
Print Assumptions stacking.
(** C87: it fails exactly on no data and on data without a chosen number *)
Theorem stacking_raises uc uv dw n data : stack_data uc uv dw n data <> OutOfFuel /\
  forall e, stack_data uc uv dw n data = Raise e <->
    (e = ValueError /\ data = []) \/ (e = TypeError /\ exists d, In d data /\ lacks uc uv d).
Proof.
  assert (S : map_res (stack_row uc uv dw n) data <> OutOfFuel /\ forall e, map_res (stack_row uc uv dw n) data = Raise e <-> e = TypeError /\ exists d, In d data /\ lacks uc uv d).
  { induction data as [|d data [IHf IH]]; cbn [map_res].
    - split; [discriminate|]. intros e. split; [discriminate|]. intros (_ & d & [] & _).
    - destruct (stack_row uc uv dw n d) as [r|e'|] eqn:E; cbn [bind]; [| |exfalso; eapply stack_row_fuel; eauto].
      + assert (NL : ~ lacks uc uv d).
        { intros L. assert (Q : stack_row uc uv dw n d = Raise TypeError) by (apply stack_row_raise; auto). congruence. }
        split; [destruct (map_res _ data); cbn; congruence|].
        intros e. transitivity (map_res (stack_row uc uv dw n) data = Raise e); [destruct (map_res _ data); cbn; split; intros H; congruence|].
        rewrite IH. split; intros (-> & x & Hx & L); (split; [auto|]); exists x; [split; [right|]; auto|]. destruct Hx as [<-|Hx]; [tauto|auto].
      + split; [discriminate|]. intros e. split.
        * intros H. injection H as <-. apply stack_row_raise in E. destruct E as [-> L]. split; auto. exists d. split; [left|]; auto.
        * intros [-> _]. apply stack_row_raise in E. destruct E as [-> _]. auto. }
  destruct data as [|d data].
  - split; [discriminate|]. intros e. cbn. split; [intros H; injection H as <-; auto|]. intros [[-> _]|[_ (d & [] & _)]]. auto.
  - unfold stack_data. destruct S as [Sf S]. split; auto. intros e. rewrite S. split; [auto|]. intros [[_ H]|H]; [discriminate|auto].
Qed.
Print Assumptions stacking_raises.

(** C87: the trajectories of the files, one file after the other *)
Section Loaded.
Context {B : Type}.
Variable parse_trajectory : B -> res ptrajectory.
Definition holds (fs : filesystem B) (p : path) (ms : list ptrajectory) : Prop :=
  record_file p /\ exists bs, fs p = Some bs /\ Forall2 (fun b m => parse_trajectory b = Ok m) bs ms.

Theorem files_in_order fs l mss : Forall2 (holds fs) l mss ->
  load_trajectories_from_records parse_trajectory fs (Files l) = Ok (map trajectory_from_proto (concat mss)).
Proof.
  unfold load_trajectories_from_records. cbn [source_files]. induction 1 as [|p ms l mss (R & bs & E & F) _ IH]; auto.
  cbn [load_files concat]. rewrite (reading_file _ _ _ _ _ _ R E F). cbn [bind]. rewrite IH. cbn [bind]. rewrite map_app. auto.
Qed.
Theorem other_sources fs l p :
  load_trajectories_from_records parse_trajectory fs (Directory l) = load_trajectories_from_records parse_trajectory fs (Files l) /\
  load_trajectories_from_records parse_trajectory fs (File p) = load_trajectories_from_records parse_trajectory fs (Files [p]).
Proof. auto. Qed.
(** the first file that cannot be read ends the loading *)
Theorem unreadable_file fs l mss p l' e : Forall2 (holds fs) l mss ->
  read_models trajectory_from_proto parse_trajectory fs p = Raise e ->
  load_trajectories_from_records parse_trajectory fs (Files (l ++ p :: l')) = Raise e.
Proof.
  unfold load_trajectories_from_records. cbn [source_files]. intros H E. induction H as [|q ms l mss (R & bs & Eq & F) _ IH]; cbn [app load_files].
  - rewrite E. auto.
  - rewrite (reading_file _ _ _ _ _ _ R Eq F). cbn [bind]. rewrite IH. auto.
Qed.

Lemma processed_labels knn asort cutoff ts data reasons : knn_ok knn -> argsort_ok asort ->
  (forall tr, In tr ts -> wf_grid (t_grid_before tr) /\ wf_grid (t_grid_after tr)) ->
  transitions_to_datapoints knn asort cutoff false ts = Ok (data, reasons) -> forall d, In d data -> (rp_next_state d <= 3)%nat.
Proof.
  intros K A W E d Hd. apply everything_counted in E. destruct E as (os & F & -> & _).
  induction F as [|tr o ts os P F IH]; [destruct Hd|]. cbn in Hd. apply in_app_or in Hd. destruct Hd as [Hd|Hd].
  - destruct o as [r|d']; [destruct Hd|]. destruct Hd as [<-|[]]. destruct (W tr) as [W1 W2]; [left; auto|]. eapply labels_in_range; eauto.
  - apply IH; auto. intros t Ht. apply W. right. auto.
Qed.
Lemma loaded_wf mss flag tr : In tr (trajectories_to_transitions (map trajectory_from_proto mss) flag) ->
  wf_grid (t_grid_before tr) /\ wf_grid (t_grid_after tr).
Proof.
  intros H. destruct (each_trajectory_alone (map trajectory_from_proto mss) flag) as [E _]. rewrite E in H. apply in_concat in H. destruct H as (l & Hl & Ht).
  apply in_map_iff in Hl. destruct Hl as (t & <- & Hin). apply In_nth_error in Ht. destruct Ht as (i & Ei).
  destruct (adjacent_pairs flag t) as [_ A]. destruct (A i tr Ei) as (b & a & E1 & E2 & TB). apply in_map_iff in Hin. destruct Hin as (m & <- & _).
  rewrite (tb_grid_before _ _ _ _ TB), (tb_grid_after _ _ _ _ TB). split; eapply from_proto_wf, nth_error_In; eauto.
Qed.

(** C87: the script up to the training: rows of the kept transitions, and six
    copies of each; no dwell time in the context but for the classifier,
    which is given the time 1 *)
Theorem prepared knn asort cutoff flag uc uv rate_network fs l mss data reasons : knn_ok knn -> argsort_ok asort ->
  Forall2 (holds fs) l mss ->
  let ts := trajectories_to_transitions (map trajectory_from_proto (concat mss)) flag in
  transitions_to_datapoints knn asort cutoff false ts = Ok (data, reasons) ->
  data <> [] -> (forall d, In d data -> ~ lacks uc uv d) ->
  exists rows stacked refs augmented,
    prepare_data parse_trajectory knn asort cutoff flag false uc uv rate_network fs (Files l) = Ok (augmented, stacked) /\
    Forall2 (row uc uv (negb rate_network) 3) data rows /\
    (if rate_network then stacked = rows else Forall2 (same_but_time 1) rows stacked) /\
    Forall2 mirror_of stacked refs /\ length augmented = (6 * length data)%nat /\
    forall i k d, (k < 3)%nat -> nth_error (stacked ++ refs) i = Some d ->
      exists d', nth_error augmented (i * 3 + k) = Some d' /\ turned_by 3 k d d'.
Proof.
  intros K A H ts E ND NL. unfold prepare_data. rewrite (files_in_order fs l mss H). cbn [bind]. fold ts. rewrite E. cbn [bind fst].
  assert (L3 : forall d, In d data -> (rp_next_state d <= 3)%nat) by (apply (processed_labels _ _ _ _ _ _ K A (loaded_wf _ _) E)).
  replace (forallb _ data) with true by (symmetry; apply forallb_forall; intros d Hd; apply Nat.leb_le; auto). cbn [bind].
  destruct (stack_data uc uv (negb rate_network) 3 data) as [rows|e|] eqn:Es; cbn [bind].
  2:{ apply stacking_raises in Es. destruct Es as [[_ Es]|[_ (d & Hd & Hl)]]; [congruence|]. destruct (NL _ Hd Hl). }
  2:{ apply stacking_raises in Es. destruct Es. }
  apply stacking in Es. destruct Es as [_ F]. exists rows.
  set (stacked := if rate_network then rows else _).
  assert (Q : if rate_network then stacked = rows else Forall2 (same_but_time 1) rows stacked).
  { unfold stacked. destruct rate_network; auto. clear. induction rows; cbn; constructor; auto. unfold same_but_time. cbn. auto. }
  assert (LS : length stacked = length data).
  { rewrite (Forall2_len _ _ _ F). unfold stacked. destruct rate_network; auto. apply map_length. }
  assert (P : Forall (proper 3) stacked).
  { assert (PR : Forall (proper 3) rows).
    { clear - F L3. induction F as [|d r data rows [St Ti Po [Ra _] _] F IH]; constructor.
      - split; auto. rewrite St. specialize (L3 d (or_introl eq_refl)). lia.
      - apply IH. intros x Hx. apply L3. right. auto. }
    unfold stacked. destruct rate_network; auto. clear - PR. induction PR as [|r rows H _ IH]; cbn; constructor; auto. }
  clearbody stacked. destruct (augment_copies stacked P) as (refs & out & Fm & Eo & Lo & C).
  exists stacked, refs, out. rewrite Eo. cbn [bind]. repeat (split; auto). rewrite Lo, LS. lia.
Qed.

(** C87: it fails where the steps fail, and never because of a label *)
Theorem preparing_raises knn asort cutoff flag plot uc uv rate_network fs l mss : knn_ok knn -> argsort_ok asort ->
  Forall2 (holds fs) l mss ->
  let ts := trajectories_to_transitions (map trajectory_from_proto (concat mss)) flag in
  forall e, prepare_data parse_trajectory knn asort cutoff flag plot uc uv rate_network fs (Files l) = Raise e <->
    transitions_to_datapoints knn asort cutoff plot ts = Raise e \/
    exists data reasons, transitions_to_datapoints knn asort cutoff plot ts = Ok (data, reasons) /\
      ((e = ValueError /\ data = []) \/ (e = TypeError /\ exists d, In d data /\ lacks uc uv d)).
Proof.
  intros K A H ts e. destruct plot.
  - (* with plots, there is no data *)
    destruct (transitions_to_datapoints knn asort cutoff true ts) as [[data reasons]|e'|] eqn:E;
      unfold prepare_data; rewrite (files_in_order fs l mss H); cbn [bind]; fold ts; rewrite E; cbn [bind fst].
    + assert (data = []) as ->.
      { clear - E. revert data reasons E. induction ts as [|tr ts IH]; intros data reasons E; cbn in E; [injection E as <- _; auto|].
        destruct (process_transition knn asort cutoff tr) as [[r|d]|x|]; cbn in E; try discriminate.
        destruct (transitions_to_datapoints knn asort cutoff true ts) as [[d' r']|x|]; try discriminate. cbn in E. injection E as <- _. eapply IH; eauto. }
      cbn. split.
      * intros Q. injection Q as <-. right. exists [], reasons. auto.
      * intros [Q|(data & rs & Q & [[-> _]|[_ (d & Hd & _)]])]; [discriminate|auto|]. injection Q as <- <-. destruct Hd.
    + split; [intros Q; injection Q as <-; auto|]. intros [Q|(data & rs & Q & _)]; [congruence|discriminate].
    + split; [discriminate|]. intros [Q|(data & rs & Q & _)]; discriminate.
  - destruct (transitions_to_datapoints knn asort cutoff false ts) as [[data reasons]|e'|] eqn:E.
    + destruct (stack_data uc uv (negb rate_network) 3 data) as [rows|e'|] eqn:Es.
      * apply stacking in Es as Es'. destruct Es' as [ND _].
        assert (NL : forall d, In d data -> ~ lacks uc uv d).
        { intros d Hd Hl. destruct (stacking_raises uc uv (negb rate_network) 3 data) as [_ S].
          assert (Q : stack_data uc uv (negb rate_network) 3 data = Raise TypeError) by (apply S; eauto). congruence. }
        destruct (prepared knn asort cutoff flag uc uv rate_network fs l mss data reasons K A H E ND NL) as (? & ? & ? & ? & -> & _).
        split; [discriminate|]. intros [Q|(data' & rs & Q & D)]; [discriminate|]. injection Q as <- <-.
        destruct D as [[_ D]|[_ (d & Hd & Hl)]]; [tauto|destruct (NL _ Hd Hl)].
      * assert (Eq : prepare_data parse_trajectory knn asort cutoff flag false uc uv rate_network fs (Files l) = Raise e').
        { unfold prepare_data. rewrite (files_in_order fs l mss H). cbn [bind]. fold ts. rewrite E. cbn [bind fst].
          assert (L3 : forall d, In d data -> (rp_next_state d <= 3)%nat) by (apply (processed_labels _ _ _ _ _ _ K A (loaded_wf _ _) E)).
          replace (forallb _ data) with true by (symmetry; apply forallb_forall; intros d Hd; apply Nat.leb_le; auto). cbn [bind]. rewrite Es. auto. }
        rewrite Eq. pose proof (proj2 (stacking_raises uc uv (negb rate_network) 3 data) e') as S. apply S in Es as D. split.
        -- intros Q. injection Q as <-. right. exists data, reasons. auto.
        -- intros [Q|(data' & rs & Q & D')]; [discriminate|]. injection Q as <- <-.
           apply (proj2 (stacking_raises uc uv (negb rate_network) 3 data)) in D'. congruence.
      * exfalso. apply stacking_raises in Es. auto.
    + unfold prepare_data; rewrite (files_in_order fs l mss H); cbn [bind]; fold ts; rewrite E; cbn [bind fst].
      split; [intros Q; injection Q as <-; auto|]. intros [Q|(data & rs & Q & _)]; [congruence|discriminate].
    + unfold prepare_data; rewrite (files_in_order fs l mss H); cbn [bind]; fold ts; rewrite E; cbn [bind fst].
      split; [discriminate|]. intros [Q|(data & rs & Q & _)]; discriminate.
Qed.
End Loaded.
Print Assumptions prepared.
Print Assumptions preparing_raises.

(** * A silicon with three neighbours that jumps to one of them *)
Definition ex_before : grid := mkgrid
  [mkpt 0 0; mkpt 1 0; mkpt 0 1; mkpt (-1) 0; mkpt 3 0; mkpt 0 3; mkpt (-3) 0; mkpt 0 (-3); mkpt 4 0; mkpt 0 4]
  [14; 6; 6; 6; 6; 6; 6; 6; 6; 6]%Z.
Definition ex_after : grid := mkgrid [mkpt 0 0; mkpt 1 0; mkpt 0 1; mkpt (-1) 0] [6; 14; 6; 6]%Z.
Definition ex_unit : fov := mkfov (mkpt 0 0) (mkpt 1 1).
Definition ex_jump : transition := mktransition ex_before ex_after ex_unit ex_unit
  [mkcontrol (mkpt (1 / 2) (1 / 10)) 1500000%Z (Some 60) (Some (1 / 10))] None None None None.

Lemma axis_x x : pdist (mkpt x 0) (mkpt 0 0) = Rabs x.
Proof. rewrite <- sqrt_Rsqr_abs. unfold pdist, pnorm, psq, psub, Rsqr. cbn [px py]. f_equal. ring. Qed.
Lemma axis_y y : pdist (mkpt 0 y) (mkpt 0 0) = Rabs y.
Proof. rewrite <- sqrt_Rsqr_abs. unfold pdist, pnorm, psq, psub, Rsqr. cbn [px py]. f_equal. ring. Qed.
Lemma ex_seen g : seen_atoms ex_unit g = atoms g.
Proof. unfold seen_atoms. rewrite <- map_id. apply map_ext. intros [[x y] z]. unfold at_relative. cbn. f_equal. f_equal; ring. Qed.

Ltac axis := rewrite ?axis_x, ?axis_y; unfold Rabs; repeat destruct Rcase_abs; try lra.
Lemma ex_nearest : nearest_atoms 10 (atoms ex_before) (mkpt 0 0) (atoms ex_before).
Proof.
  split; [reflexivity|]. exists []. split; [rewrite app_nil_r; reflexivity|]. split; [|intros a b _ []].
  intros i j a b L Ei Ej. pose proof (nth_error_lt _ _ _ Ej) as Lj. cbn in Lj.
  do 10 (destruct j as [|j]; [do 10 (destruct i as [|i]; [try (exfalso; lia); cbn in Ei, Ej; injection Ei as <-; injection Ej as <-; cbn [fst]; axis|]); exfalso; lia|]); exfalso; lia.
Qed.

Example jump_nonvacuous : exists d, process_transition knn_sort argsort_stable 1 ex_jump = Ok (inr d).
Proof.
  apply (criteria_suffice knn_sort argsort_stable 1 ex_jump _ (mkpt 0 0) (mkpt 1 0) knn_sort_ok argsort_stable_ok eq_refl eq_refl eq_refl);
    cbn [t_fov_before t_fov_after t_grid_before t_grid_after ex_jump]; rewrite ?ex_seen.
  - apply selects_keep; auto. repeat (apply selects_drop; [cbn; lia|]). constructor.
  - apply selects_drop; [cbn; lia|]. apply selects_keep; auto. repeat (apply selects_drop; [cbn; lia|]). constructor.
  - cbn. lia.
  - cbn. lia.
  - intros F. apply (is_fourfold_iff _ _ _ ex_nearest) in F. unfold is_fourfold, distances, ex_before in F. cbn [atoms positions numbers combine map nth fst] in F.
    rewrite (pdist_sym (mkpt 0 0) (mkpt 1 0)), (pdist_sym (mkpt 0 0) (mkpt 3 0)) in F. rb. revert F. axis.
  - exists (firstn 4 (atoms ex_before)), (skipn 4 (atoms ex_before)). split; [rewrite firstn_skipn; reflexivity|]. split; [reflexivity|].
    split; intros a Ha; cbn in Ha; repeat (destruct Ha as [<-|Ha]; [cbn [fst]; axis|]); destruct Ha.
  - intros near near' N N'.
    assert (P' : forall a, In a (atoms ex_after) -> In a near').
    { destruct N' as (L & rest & P & _). assert (rest = []) as ->.
      { apply Permutation_length in P. rewrite app_length, L in P. destruct rest; auto. cbn in P. lia. }
      rewrite app_nil_r in P. intros a. apply (Permutation_in _ P). }
    assert (Q : forall a, In a near -> In (fst a) (map fst (atoms ex_after))).
    { intros a Ha. apply In_nth_error in Ha as (i & Ei). pose proof N as (L & rest & P & _).
      assert (Li : (i < 4)%nat) by (rewrite <- L; eapply nth_error_lt; eauto).
      assert (D : pdist (fst a) (mkpt 0 0) <= 1).
      { pose proof (nearest_firstn 10 4 _ _ _ ltac:(lia) ex_nearest) as N4.
        assert (D : forall b, nth_error (firstn 4 (atoms ex_before)) i = Some b -> pdist (fst a) (mkpt 0 0) = pdist (fst b) (mkpt 0 0)) by (intros b Eb; apply (nearest_unique _ _ _ _ _ _ _ _ N N4 Ei Eb)).
        do 4 (destruct i as [|i]; [rewrite (D _ eq_refl); cbn [fst]; axis|]). lia. }
      assert (Hin : In a (atoms ex_before)) by (apply (Permutation_in _ (Permutation_sym P)); apply in_or_app; left; eapply nth_error_In; eauto).
      cbn in Hin. repeat (destruct Hin as [<-|Hin]; [first [cbn; tauto | exfalso; revert D; cbn [fst]; axis]|]). destruct Hin. }
    split; [apply P'; cbn; tauto|]. exists (map (fun _ => 0) near). split.
    + clear N. induction near as [|a near IH]; constructor; [|apply IH; intros b Hb; apply Q; right; auto].
      split; [|intros; apply pdist_nonneg]. specialize (Q a (or_introl eq_refl)). apply in_map_iff in Q. destruct Q as (b & E & Hb).
      exists b. split; auto. rewrite E. apply pdist_self.
    + destruct N as (L & _). rewrite L. destruct near as [|x0 [|x1 [|x2 [|x3 [|]]]]]; try discriminate. cbn. lra.
Qed.

(** One transition is kept and two are left out; plotting them raises, and so
    does a picture with few atoms. *)
Definition ex_idle : transition := mktransition ex_before ex_after ex_unit ex_unit [] None None None None.
Definition ex_pure : transition := mktransition ex_before (mkgrid (positions ex_after) [6; 6; 6; 6]%Z) ex_unit ex_unit
  (t_controls ex_jump) None None None None.
Definition ex_few : transition := mktransition ex_after ex_after ex_unit ex_unit (t_controls ex_jump) None None None None.
Example left_out_nonvacuous : exists d,
  transitions_to_datapoints knn_sort argsort_stable 1 false [ex_jump; ex_idle; ex_pure] = Ok ([d], [NoControls; WrongNumberOfSilicons]) /\
  transitions_to_datapoints knn_sort argsort_stable 1 true [ex_jump; ex_idle; ex_pure] = Raise TypeError /\
  process_transition knn_sort argsort_stable 1 ex_few = Raise ValueError.
Proof.
  destruct jump_nonvacuous as (d & E). exists d.
  assert (P : transitions_to_datapoints knn_sort argsort_stable 1 false [ex_jump; ex_idle; ex_pure] = Ok ([d], [NoControls; WrongNumberOfSilicons])).
  { apply everything_counted. exists [inr d; inl NoControls; inl WrongNumberOfSilicons]. split; [|auto].
    constructor; [exact E|]. constructor; [reflexivity|]. constructor; [|constructor].
    pose proof E as J. unfold process_transition in *.
    cbn [ex_jump ex_pure t_controls t_grid_before t_grid_after t_fov_before t_fov_after] in *.
    destruct (get_silicon_positions (grid_to_material ex_unit ex_before)) as [|si [|]]; try discriminate.
    destruct (kneighbors knn_sort 10 _ si) as [idx|x|]; cbn [bind] in *; try discriminate.
    destruct (at_indices _ idx) as [ns|x|]; cbn [bind] in *; try discriminate.
    destruct (is_fourfold _); try discriminate. destruct (negb (is_threefold _)); try discriminate.
    replace (positions (grid_to_material ex_unit (mkgrid (positions ex_after) [6; 6; 6; 6]%Z))) with (positions (grid_to_material ex_unit ex_after)) by reflexivity.
    destruct (kneighbors knn_sort 4 _ si) as [idx'|x|] eqn:Ek; cbn [bind] in *; try discriminate.
    destruct (at_indices (positions _) idx') as [ns'|x|] eqn:Ep; cbn [bind] in *; try discriminate.
    assert (Q : exists zs, at_indices (numbers (grid_to_material ex_unit (mkgrid (positions ex_after) [6; 6; 6; 6]%Z))) idx' = Ok zs).
    { clear - Ep. unfold at_indices in *. destruct (take_idx (positions _) idx') as [l|] eqn:T; [|discriminate]. clear Ep ns'.
      assert (I : forall i, In i idx' -> (i < 4)%nat).
      { revert l T. induction idx' as [|i idx' IH]; intros l T j Hj; [destruct Hj|].
        cbn [take_idx] in T. destruct (nth_error _ i) as [x|] eqn:N in T; [|discriminate].
        destruct (take_idx _ idx') as [l'|] eqn:T' in T; [|discriminate].
        destruct Hj as [<-|Hj]; [apply nth_error_lt in N; exact N|exact (IH _ T' j Hj)]. }
      assert (Z : exists zs, take_idx (numbers (grid_to_material ex_unit (mkgrid (positions ex_after) [6; 6; 6; 6]%Z))) idx' = Some zs).
      { clear T. induction idx' as [|i idx' IH]; [exists []; reflexivity|]. cbn [take_idx].
        destruct IH as (zs & ->); [intros j Hj; apply I; right; exact Hj|].
        specialize (I i (or_introl eq_refl)). do 4 (destruct i as [|i]; [eexists; reflexivity|]). lia. }
      destruct Z as (zs & ->). eauto. }
    destruct Q as (zs & ->). cbn [bind]. reflexivity. }
  split; [exact P|]. split; [exact (proj2 (plotting_fails_refuted _ _ _ _) _ _ _ P)|].
  apply (processing_raises knn_sort argsort_stable 1 ex_few knn_sort_ok argsort_stable_ok eq_refl eq_refl). split; [reflexivity|].
  split; [reflexivity|]. exists (mkpt 1 0). cbn [ex_few t_grid_before t_fov_before]. rewrite ex_seen. split.
  - apply selects_drop; [cbn; lia|]. apply selects_keep; auto. repeat (apply selects_drop; [cbn; lia|]). constructor.
  - left. cbn. lia.
Qed.

Print Assumptions files_in_order.
Print Assumptions other_sources.
Print Assumptions unreadable_file.
