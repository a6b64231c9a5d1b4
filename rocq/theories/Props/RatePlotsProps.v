(** Property C118: what the plots of rates show. *)
From Coq Require Import Reals String ZArith List Bool Lia Lra Arith Permutation.
From Verif Require Import Base.Prelude Base.Matrix Model.Constants Model.Geometry Model.MicroscopeUtils Model.Graphene
  Model.Agents Model.PlottingUtils Model.RatePlots
  Spec.Grids Spec.Neighbours Spec.Material Spec.MaterialRuns Spec.RatePlots
  Proofs.BaseFacts Proofs.NeighbourFacts Proofs.MaterialFacts Proofs.RateFacts Proofs.GaussianFacts Props.RateProps.
Import ListNotations.
Local Open Scope R_scope.

Lemma map_res_map {A B} (f : A -> res B) (h : A -> B) l : (forall x, In x l -> f x = Ok (h x)) -> map_res f l = Ok (map h l).
Proof.
  induction l as [|x l IH]; intro H; [reflexivity|]. cbn [map_res map]. rewrite (H x (or_introl eq_refl)). cbn [bind].
  rewrite IH by (intros; apply H; right; assumption). reflexivity.
Qed.
Lemma nth_error_same {A} (l m : list A) : (forall k, nth_error l k = nth_error m k) -> l = m.
Proof.
  revert m. induction l as [|a l IH]; intros [|b m] H; [reflexivity|discriminate (H 0%nat)|discriminate (H 0%nat)|].
  f_equal; [specialize (H 0%nat); cbn in H; congruence|]. apply IH. intro k. apply (H (S k)).
Qed.
Lemma nth_error_Forall2 {A B} (P : A -> B -> Prop) l m : length l = length m ->
  (forall k a b, nth_error l k = Some a -> nth_error m k = Some b -> P a b) -> Forall2 P l m.
Proof.
  revert m. induction l as [|a l IH]; intros [|b m] L H; try discriminate; constructor.
  - apply (H 0%nat); reflexivity.
  - apply IH; [cbn in L; lia|]. intros k. apply (H (S k)).
Qed.
Lemma linspace_ticks low high n : linspace low high n = ticks low high n.
Proof. reflexivity. Qed.
Lemma pt_eqb_true p q : pt_eqb p q = true <-> p = q.
Proof.
  unfold pt_eqb. rewrite andb_true_iff, !Reqb_true. destruct p, q; cbn. split; [intros [-> ->]; reflexivity|].
  intro E. inversion E. auto.
Qed.
Lemma filter_flat_map {A B} (f : B -> bool) (h : A -> list B) l :
  filter f (flat_map h l) = flat_map (fun x => filter f (h x)) l.
Proof. induction l as [|x l IH]; [reflexivity|]. cbn [flat_map]. rewrite filter_app, IH. reflexivity. Qed.
Lemma concat_map_flat {A B} (h : A -> list B) l : concat (map h l) = flat_map h l.
Proof. symmetry. apply flat_map_concat_map. Qed.
Lemma flat_map_single {A B} (h : A -> B) l : flat_map (fun x => [h x]) l = map h l.
Proof. induction l as [|x l IH]; [reflexivity|]. cbn. rewrite IH. reflexivity. Qed.

Section Centred.
Variables (g : grid) (s : nat) (si : pt).
Context (D : single_doped g s) (N : NoDup (positions g)) (E : nth_error (positions g) s = Some si).

Lemma centred_made : center_grid_on_single_silicon g = Ok (centred g si).
Proof. unfold center_grid_on_single_silicon. rewrite (single_silicon_single g s si D E). reflexivity. Qed.
Lemma centred_doped : single_doped (centred g si) s.
Proof.
  destruct D as (W & L & H). split; [|split; [exact L|exact H]].
  unfold wf_grid in *. cbn [centred positions numbers]. rewrite map_length. exact W.
Qed.
Lemma centred_nodup : NoDup (positions (centred g si)).
Proof.
  cbn. apply FinFun.Injective_map_NoDup; [|exact N]. intros p q H. unfold psub in H. destruct p, q; cbn in H.
  inversion H. f_equal; lra.
Qed.
Lemma centred_silicon : nth_error (positions (centred g si)) s = Some pzero.
Proof.
  cbn. rewrite nth_error_map, E. cbn. f_equal. unfold psub, pzero. f_equal; lra.
Qed.
End Centred.

Lemma doped_nth g s : single_doped g s -> get_single_silicon_position g = Ok (nth s (positions g) pzero).
Proof.
  intro D. destruct (single_doped_pos g s D) as (p & E). rewrite (single_silicon_single g s p D E).
  f_equal. symmetry. apply nth_error_nth. exact E.
Qed.

Lemma hop_list {B} rf g idx rate (h : pt -> R -> pt -> res B) (k : pt -> R -> pt -> B) beam :
  hops_to rf g idx rate ->
  (forall i, In i idx -> h beam (rate beam i) (nth i (positions g) pzero) = Ok (k beam (rate beam i) (nth i (positions g) pzero))) ->
  exists rs, rf g beam = Ok rs /\ map snd rs = map (rate beam) idx /\
    map_res (fun s => bind (get_single_silicon_position (fst s)) (fun p => h beam (snd s) p)) rs =
    Ok (map (fun i => k beam (rate beam i) (nth i (positions g) pzero)) idx).
Proof.
  intros H Hk. destruct (H beam) as (rs & E & F). exists rs. split; [exact E|]. clear E H.
  induction F as [|i [g' r] idx rs (P & Dg & Er) F IH]; [split; reflexivity|].
  cbn [fst snd] in P, Dg, Er. destruct IH as (IHa & IHb); [intros; apply Hk; right; assumption|].
  cbn [map map_res fst snd]. rewrite IHa, Er. split; [reflexivity|].
  rewrite (doped_nth _ _ Dg). cbn [bind]. rewrite P. rewrite (Hk i (or_introl eq_refl)). cbn [bind].
  rewrite IHb. reflexivity.
Qed.

Lemma rows_made rf g idx rate low high n : hops_to rf g idx rate ->
  rate_rows rf g (low, high) n = Ok (flat_map (fun x => flat_map (fun y =>
    map (fun i => mkrow x y (rate (mkpt x y) i) (nth i (positions g) pzero)) idx) (ticks low high n)) (ticks low high n)).
Proof.
  intro H. unfold rate_rows. cbn [fst snd]. rewrite linspace_ticks.
  rewrite (map_res_map _ (fun x => flat_map (fun y =>
    map (fun i => mkrow x y (rate (mkpt x y) i) (nth i (positions g) pzero)) idx) (ticks low high n))).
  - cbn [bind]. rewrite concat_map_flat. reflexivity.
  - intros x _. rewrite (map_res_map _ (fun y => map (fun i => mkrow x y (rate (mkpt x y) i) (nth i (positions g) pzero)) idx)).
    + cbn [bind]. rewrite concat_map_flat. reflexivity.
    + intros y _. unfold point_rows.
      destruct (hop_list rf g idx rate (fun b r p => Ok (mkrow x y r p)) (fun b r p => mkrow x y r p) (mkpt x y) H) as (rs & E & _ & M);
        [reflexivity|]. rewrite E. cbn [bind]. exact M.
Qed.

Lemma nth_distinct {A} (l : list A) d i j : NoDup l -> (i < length l)%nat -> (j < length l)%nat -> nth i l d = nth j l d -> i = j.
Proof. intros N Li Lj H. eapply NoDup_nth; eauto. Qed.

Lemma filter_map_one {B} (f : B -> bool) (h : nat -> B) idx i : NoDup idx -> In i idx ->
  (forall j, In j idx -> f (h j) = true <-> j = i) -> filter f (map h idx) = [h i].
Proof.
  induction idx as [|a idx IH]; intros N Hi Hf; [destruct Hi|]. inversion N as [|? ? Na Nl]; subst. cbn [map filter].
  destruct (f (h a)) eqn:Ea.
  - assert (a = i) by (apply Hf; [left; reflexivity|exact Ea]). subst a. f_equal.
    assert (K : forall j, In j idx -> f (h j) = false).
    { intros j Hj. destruct (f (h j)) eqn:Ej; [|reflexivity]. apply Hf in Ej; [|right; exact Hj]. subst j. contradiction. }
    clear -K. induction idx as [|b idx IH]; [reflexivity|]. cbn [map filter]. rewrite K by (left; reflexivity).
    apply IH. intros; apply K; right; assumption.
  - destruct Hi as [-> | Hi].
    { assert (f (h i) = true) by (apply Hf; [left; reflexivity|reflexivity]). congruence. }
    apply IH; auto. intros j Hj. apply Hf. right. exact Hj.
Qed.

(** ** plot_rate_function3: every neighbour has one colour, for the atom and for
    the contour, which is made of all rates towards this neighbour *)
Theorem rate_contours : forall order rf g s si idx rate low high n,
  goes_through_set order -> single_doped g s -> NoDup (positions g) -> nth_error (positions g) s = Some si ->
  three_nearest (positions g) s idx -> hops_to rf (centred g si) idx rate -> (1 <= n)%nat ->
  exists plot, plot_rate_function3 order rf g (low, high) n = Ok plot /\
    rp_atoms plot = map (fun p => psub p si) (positions g) /\ rp_limits plot = (low, high) /\
    length (rp_dots plot) = 3%nat /\ length (rp_contours plot) = 3%nat /\
    NoDup (map snd (rp_dots plot)) /\ map fst (rp_contours plot) = map snd (rp_dots plot) /\
    forall i p, In i idx -> nth_error (positions g) i = Some p ->
      exists colour, In (psub p si, colour) (rp_dots plot) /\
        In (colour, rows_towards low high n (fun beam => rate beam i) (psub p si)) (rp_contours plot).
Proof.
  intros order rf g s si idx rate low high n O D N E T H Ln.
  unfold plot_rate_function3. rewrite (centred_made g s si D E). cbn [bind].
  rewrite (rows_made rf (centred g si) idx rate low high n H). cbn [bind].
  set (q := fun i => nth i (positions (centred g si)) pzero).
  set (rows := flat_map _ (ticks low high n)). set (next := order (map row_next rows)).
  destruct (O (map row_next rows)) as (Nd & Mem). fold next in Nd, Mem.
  assert (Li : forall i, In i idx -> (i < length (positions (centred g si)))%nat).
  { intros i Hi. destruct (tn_in _ _ _ T i Hi) as (p & Hp). cbn. rewrite map_length. eapply nth_error_lt; eauto. }
  assert (Qi : forall i j, In i idx -> In j idx -> q i = q j -> i = j).
  { intros i j Hi Hj Q. eapply nth_distinct; [eapply centred_nodup; exact N|apply Li; exact Hi|apply Li; exact Hj|exact Q]. }
  assert (Tk : exists t, In t (ticks low high n)).
  { exists (tick low high n 0). unfold ticks. apply in_map. apply in_seq. lia. }
  assert (Mq : forall p, In p next <-> In p (map q idx)).
  { intro p. rewrite Mem. rewrite in_map_iff. unfold rows. split.
    - intros (r & <- & Hr). apply in_flat_map in Hr. destruct Hr as (x & _ & Hr). apply in_flat_map in Hr.
      destruct Hr as (y & _ & Hr). apply in_map_iff in Hr. destruct Hr as (i & <- & Hi). cbn [row_next].
      apply in_map_iff. exists i. split; [reflexivity|exact Hi].
    - intro Hp. apply in_map_iff in Hp. destruct Hp as (i & <- & Hi). destruct Tk as (t & Ht).
      exists (mkrow t t (rate (mkpt t t) i) (q i)). split; [reflexivity|].
      apply in_flat_map. exists t. split; [exact Ht|]. apply in_flat_map. exists t. split; [exact Ht|].
      apply in_map_iff. exists i. split; [reflexivity|exact Hi]. }
  assert (Nq : NoDup (map q idx)).
  { pose proof (tn_nodup _ _ _ T) as Ni. clear -Qi Ni. induction idx as [|a l IH]; [constructor|]. inversion Ni; subst.
    cbn [map]. constructor.
    - intro Hin. apply in_map_iff in Hin. destruct Hin as (j & Q & Hj). apply Qi in Q; [|right; exact Hj|left; reflexivity].
      subst. contradiction.
    - apply IH; [|assumption]. intros i j Hi Hj. apply Qi; right; assumption. }
  assert (Ln3 : length next = 3%nat).
  { rewrite (Permutation_length (NoDup_Permutation Nd Nq Mq)), map_length. apply (tn_length _ _ _ T). }
  rewrite Ln3. cbn [length cmaps Nat.eqb].
  eexists. split; [reflexivity|]. cbn [rp_atoms rp_limits rp_dots rp_contours centred positions].
  split; [reflexivity|]. split; [reflexivity|].
  assert (Lc : length (combine next cmaps) = 3%nat) by (rewrite combine_length, Ln3; reflexivity).
  assert (Sc : map snd (combine next cmaps) = cmaps).
  { clear -Ln3. destruct next as [|a [|b [|c [|]]]]; try discriminate. reflexivity. }
  rewrite map_length. split; [exact Lc|]. split; [exact Lc|].
  rewrite Sc. split; [repeat constructor; cbn; intuition discriminate|].
  split; [rewrite map_map; cbn [fst]; exact Sc|].
  intros i p Hi Hp.
  assert (Qp : q i = psub p si).
  { unfold q. cbn [centred positions]. apply nth_error_nth. rewrite nth_error_map, Hp. reflexivity. }
  assert (In (q i) next) as Hq by (apply Mq, in_map; exact Hi).
  apply In_nth_error in Hq. destruct Hq as (k & Hk).
  assert (exists c, nth_error cmaps k = Some c) as (c & Hc).
  { destruct (nth_error cmaps k) eqn:Z; [eauto|]. apply nth_error_None in Z. apply nth_error_lt in Hk. cbn in Z. lia. }
  assert (In (q i, c) (combine next cmaps)) as Hd.
  { clear -Hk Hc. revert Hk Hc. generalize cmaps. revert k. induction next as [|a l IH]; intros [|k] [|b m] Hk Hc; cbn in *; try discriminate.
    - left. congruence.
    - right. eapply IH; eauto. }
  exists c. rewrite <- Qp. split; [exact Hd|].
  apply in_map_iff. exists (q i, c). split; [|exact Hd]. cbn [fst snd]. f_equal.
  unfold rows, rows_towards. rewrite filter_flat_map. apply flat_map_ext. intro x.
  rewrite filter_flat_map, <- flat_map_single. apply flat_map_ext. intro y.
  rewrite (filter_map_one _ _ idx i (tn_nodup _ _ _ T) Hi); [reflexivity|].
  intros j Hj. cbn [row_next]. rewrite pt_eqb_true. split; [|intros ->; reflexivity]. apply Qi; assumption.
Qed.
Print Assumptions rate_contours.

(** a sheet without silicon, and no points at all *)
Theorem rate_plot_errors : forall order knn rf g low high n radius, goes_through_set order ->
  (wf_grid g -> (~ exists p, In (p, 14%Z) (atoms g)) ->
    plot_rate_function3 order rf g (low, high) n = Raise ValueError /\
    plot_rate_along_neighbor_vector3 knn rf g (low, high) n = Raise ValueError /\
    plot_rate_along_arc3 knn rf g radius n = Raise ValueError) /\
  (forall s, single_doped g s -> plot_rate_function3 order rf g (low, high) 0 = Raise ValueError).
Proof.
  intros order knn rf g low high n radius O. split.
  - intros W Z. assert (X : center_grid_on_single_silicon g = Raise ValueError).
    { unfold center_grid_on_single_silicon. rewrite (proj2 (single_silicon_missing g W) Z). reflexivity. }
    unfold plot_rate_function3, plot_rate_along_neighbor_vector3, plot_rate_along_arc3. rewrite X. auto.
  - intros s D. destruct (single_doped_pos g s D) as (si & E).
    unfold plot_rate_function3. rewrite (centred_made g s si D E). cbn.
    destruct (O []) as (_ & M). destruct (order []) as [|a l]; [reflexivity|].
    exfalso. apply (proj1 (M a)). left. reflexivity.
Qed.
Print Assumptions rate_plot_errors.

Lemma fold_max_greatest l x : greatest (x :: l) (fold_left Rmax l x).
Proof.
  revert x. induction l as [|y l IH]; intro x.
  - split; [left; reflexivity|]. intros z [<-|[]]. cbn. lra.
  - cbn [fold_left]. destruct (IH (Rmax x y)) as (I & M). split.
    + destruct I as [I|I]; [|right; right; exact I]. rewrite <- I. unfold Rmax. destruct (Rle_dec x y); [right; left; reflexivity|left; reflexivity].
    + intros z [<-|[<-|Hz]]; [| |apply M; right; exact Hz].
      * apply Rle_trans with (Rmax x y); [apply Rmax_l|apply M; left; reflexivity].
      * apply Rle_trans with (Rmax x y); [apply Rmax_r|apply M; left; reflexivity].
Qed.
Lemma py_max_greatest l : l <> [] -> exists m, py_max l = Ok m /\ greatest l m.
Proof. destruct l as [|x l]; [congruence|]. intros _. eexists. split; [reflexivity|]. apply fold_max_greatest. Qed.

Lemma positions_taken g idx : (forall i, In i idx -> (i < length (positions g))%nat) ->
  positions_at g idx = Ok (map (fun i => nth i (positions g) pzero) idx).
Proof.
  intro H. unfold positions_at. destruct (take_idx_Some (positions g) idx H) as (r & Er & L). rewrite Er. f_equal.
  apply nth_error_same. intro k. rewrite nth_error_map, (take_idx_nth _ _ _ _ Er).
  destruct (nth_error idx k) as [i|] eqn:Ek; [|reflexivity]. cbn. apply nth_error_nth'. apply H. eapply nth_error_In; eauto.
Qed.

(** ** plot_rate_along_neighbor_vector3: the rate towards the nearest neighbour,
    with the beam on the line through it *)
Theorem rate_line : forall knn rf g s si i0 i1 i2 p0 rate low high n,
  single_doped g s -> NoDup (positions g) -> nth_error (positions g) s = Some si ->
  nearest_neighbors3 knn (positions (centred g si)) pzero false = Ok [i0; i1; i2] ->
  three_nearest (positions g) s [i0; i1; i2] ->
  hops_to rf (centred g si) [i0; i1; i2] rate ->
  nth_error (positions g) i0 = Some p0 ->
  (forall i p, In i [i1; i2] -> nth_error (positions g) i = Some p -> 1 / 100 <= pdist p p0) ->
  (n = 0%nat -> plot_rate_along_neighbor_vector3 knn rf g (low, high) n = Raise ValueError) /\
  ((1 <= n)%nat -> exists top, 
    greatest (map (fun a => rate (pscale a (psub p0 si)) i0) (ticks low high n)) top /\
    plot_rate_along_neighbor_vector3 knn rf g (low, high) n =
    Ok (map (fun a => (a, rate (pscale a (psub p0 si)) i0)) (ticks low high n), top * (11 / 10))).
Proof.
  intros knn rf g s si i0 i1 i2 p0 rate low high n D N E K T H P0 Far.
  unfold plot_rate_along_neighbor_vector3. rewrite (centred_made g s si D E). cbn [bind]. rewrite K. cbn [bind].
  set (q := fun i => nth i (positions (centred g si)) pzero).
  assert (Li : forall i, In i [i0; i1; i2] -> (i < length (positions (centred g si)))%nat).
  { intros i Hi. destruct (tn_in _ _ _ T i Hi) as (p & Hp). cbn [centred positions]. rewrite map_length. eapply nth_error_lt; eauto. }
  rewrite (positions_taken (centred g si) [i0; i1; i2] Li). fold q. cbn [bind map].
  assert (Qi : forall i p, nth_error (positions g) i = Some p -> q i = psub p si).
  { intros i p Hp. unfold q. cbn [centred positions]. apply nth_error_nth. rewrite nth_error_map, Hp. reflexivity. }
  rewrite (Qi i0 p0 P0). cbn [fst snd]. rewrite linspace_ticks.
  assert (Dif : forall p, psub (psub p si) (psub p0 si) = psub p p0).
  { intro p. unfold psub. cbn. f_equal; lra. }
  assert (C : map_res (fun x => bind (rf (centred g si) (pscale x (psub p0 si))) (fun rs =>
        bind (map_res (fun s0 => bind (get_single_silicon_position (fst s0)) (fun p =>
          Ok (if Rltb (pnorm (psub p (psub p0 si))) (1 / 100) then [(x, snd s0)] else []))) rs)
        (fun kept => Ok (concat kept)))) (ticks low high n) =
      Ok (map (fun a => [(a, rate (pscale a (psub p0 si)) i0)]) (ticks low high n))).
  { apply map_res_map. intros x _.
    destruct (hop_list rf (centred g si) [i0; i1; i2] rate
      (fun b r p => Ok (if Rltb (pnorm (psub p (psub p0 si))) (1 / 100) then [(x, r)] else []))
      (fun b r p => if Rltb (pnorm (psub p (psub p0 si))) (1 / 100) then [(x, r)] else [])
      (pscale x (psub p0 si)) H) as (rs & Er & _ & M); [reflexivity|].
    rewrite Er. cbn [bind]. rewrite M. cbn [bind map]. fold (q i0) (q i1) (q i2). rewrite (Qi i0 p0 P0), Dif.
    replace (Rltb (pnorm (psub p0 p0)) (1 / 100)) with true.
    2:{ symmetry. apply Rltb_true. replace (psub p0 p0) with pzero by (unfold psub, pzero; f_equal; lra).
        unfold pnorm, psq, pzero. cbn. replace (0 * 0 + 0 * 0) with 0 by ring. rewrite sqrt_0. lra. }
    assert (F : forall i, In i [i1; i2] -> Rltb (pnorm (psub (q i) (psub p0 si))) (1 / 100) = false).
    { intros i Hi. destruct (tn_in _ _ _ T i) as (p & Hp); [right; exact Hi|]. rewrite (Qi i p Hp), Dif.
      apply Rltb_false. apply (Far i p Hi Hp). }
    rewrite (F i1) by (left; reflexivity). rewrite (F i2) by (right; left; reflexivity). reflexivity. }
  rewrite C. cbn [bind]. rewrite concat_map_flat, flat_map_single, map_map. cbn [snd]. split.
  - intros ->. reflexivity.
  - intro Ln. destruct (py_max_greatest (map (fun a => rate (pscale a (psub p0 si)) i0) (ticks low high n))) as (m & Em & G).
    + intro Z. apply map_eq_nil in Z. unfold ticks in Z. apply map_eq_nil in Z. destruct n; [lia|discriminate].
    + exists m. split; [exact G|]. rewrite Em. reflexivity.
Qed.
Print Assumptions rate_line.

(** ** plot_rate_along_arc3: the total rate and the three rates for each angle *)
Theorem rate_arc : forall knn rf g s si i0 i1 i2 p0 p1 p2 rate radius n,
  single_doped g s -> NoDup (positions g) -> nth_error (positions g) s = Some si ->
  nearest_neighbors3 knn (positions (centred g si)) pzero false = Ok [i0; i1; i2] ->
  three_nearest (positions g) s [i0; i1; i2] -> hops_to rf (centred g si) [i0; i1; i2] rate ->
  nth_error (positions g) i0 = Some p0 -> nth_error (positions g) i1 = Some p1 -> nth_error (positions g) i2 = Some p2 ->
  let r := radius * ((pdist p0 si + pdist p1 si + pdist p2 si) / 3) in
  plot_rate_along_arc3 knn rf g radius n = Ok (flat_map (fun a =>
    let beam := mkpt (r * sin a) (r * cos a) in
    [(a, rate beam i0 + rate beam i1 + rate beam i2, TotalRate);
     (a, rate beam i0, NextState 1); (a, rate beam i1, NextState 2); (a, rate beam i2, NextState 3)])
    (ticks 0 (2 * PI) n)).
Proof.
  intros knn rf g s si i0 i1 i2 p0 p1 p2 rate radius n D N E K T H P0 P1 P2. cbv zeta.
  unfold plot_rate_along_arc3. rewrite (centred_made g s si D E). cbn [bind]. rewrite K. cbn [bind].
  set (q := fun i => nth i (positions (centred g si)) pzero).
  assert (Li : forall i, In i [i0; i1; i2] -> (i < length (positions (centred g si)))%nat).
  { intros i Hi. destruct (tn_in _ _ _ T i Hi) as (p & Hp). cbn [centred positions]. rewrite map_length. eapply nth_error_lt; eauto. }
  rewrite (positions_taken (centred g si) [i0; i1; i2] Li). fold q. cbn [bind map].
  assert (Qi : forall i p, nth_error (positions g) i = Some p -> q i = psub p si).
  { intros i p Hp. unfold q. cbn [centred positions]. apply nth_error_nth. rewrite nth_error_map, Hp. reflexivity. }
  rewrite (Qi i0 p0 P0), (Qi i1 p1 P1), (Qi i2 p2 P2).
  set (r := radius * ((pdist p0 si + pdist p1 si + pdist p2 si) / 3)).
  replace (radius * np_mean [pnorm (psub p0 si); pnorm (psub p1 si); pnorm (psub p2 si)]) with r.
  2:{ unfold r, np_mean, pdist, rsum. cbn [fold_right length INR]. field. }
  assert (Inj : forall i j p p', In i [i0; i1; i2] -> In j [i0; i1; i2] -> nth_error (positions g) i = Some p ->
    nth_error (positions g) j = Some p' -> i <> j -> pt_eqb (psub p si) (psub p' si) = false).
  { intros i j p p' Hi Hj Hp Hp' Ne. apply not_true_iff_false. intro X. apply pt_eqb_true in X. apply Ne.
    apply (nth_distinct (positions (centred g si)) pzero); [apply centred_nodup; exact N|apply Li; exact Hi|apply Li; exact Hj|].
    change (q i = q j). rewrite (Qi i p Hp), (Qi j p' Hp'). exact X. }
  pose proof (tn_nodup _ _ _ T) as Ni. inversion Ni as [|? ? Na Nl]; subst. inversion Nl as [|? ? Nb Nl2]; subst.
  assert (i0 <> i1) by (intro; subst; apply Na; left; reflexivity).
  assert (i0 <> i2) by (intro; subst; apply Na; right; left; reflexivity).
  assert (i1 <> i2) by (intro; subst; apply Nb; left; reflexivity).
  set (nbs := [psub p0 si; psub p1 si; psub p2 si]).
  assert (L0 : label_of nbs (psub p0 si) = Some 1%nat).
  { unfold label_of, nbs. cbn [length seq combine rev app find fst].
    rewrite (Inj i2 i0 p2 p0), (Inj i1 i0 p1 p0); cbn [In]; auto. rewrite (proj2 (pt_eqb_true _ _) eq_refl). reflexivity. }
  assert (L1 : label_of nbs (psub p1 si) = Some 2%nat).
  { unfold label_of, nbs. cbn [length seq combine rev app find fst].
    rewrite (Inj i2 i1 p2 p1); cbn [In]; auto. rewrite (proj2 (pt_eqb_true _ _) eq_refl). reflexivity. }
  assert (L2 : label_of nbs (psub p2 si) = Some 3%nat).
  { unfold label_of, nbs. cbn [length seq combine rev app find fst].
    rewrite (proj2 (pt_eqb_true _ _) eq_refl). reflexivity. }
  rewrite linspace_ticks.
  erewrite map_res_map; [cbn [bind]; rewrite concat_map_flat; reflexivity|].
  intros a _. cbv beta.
  replace (mkpt (sin a * r) (cos a * r)) with (mkpt (r * sin a) (r * cos a)) by (f_equal; ring).
  destruct (hop_list rf (centred g si) [i0; i1; i2] rate
    (fun b x p => match label_of nbs p with None => Raise KeyError | Some label => Ok (a, x, NextState label) end)
    (fun b x p => match label_of nbs p with None => (a, x, TotalRate) | Some label => (a, x, NextState label) end)
    (mkpt (r * sin a) (r * cos a)) H) as (rs & Er & Ms & M).
  { intros i Hi. fold (q i). destruct Hi as [<-|[<-|[<-|[]]]].
    - rewrite (Qi i0 p0 P0), L0. reflexivity.
    - rewrite (Qi i1 p1 P1), L1. reflexivity.
    - rewrite (Qi i2 p2 P2), L2. reflexivity. }
  rewrite Er. cbn [bind]. rewrite M. cbn [bind map]. fold (q i0) (q i1) (q i2).
  rewrite (Qi i0 p0 P0), (Qi i1 p1 P1), (Qi i2 p2 P2), L0, L1, L2. unfold total_rate. rewrite Ms.
  unfold rsum. cbn [map fold_right]. do 2 f_equal. f_equal. f_equal. ring.
Qed.
Print Assumptions rate_arc.

(** the angle of the arc is not the angle of the beam (counter-clockwise from the
    right, as geometry.get_angles): it runs clockwise from the top *)
Theorem arc_angle_refuted : forall r a, 0 < r -> 0 <= a < PI / 4 ->
  mkpt (r * sin a) (r * cos a) = mkpt (r * cos (PI / 2 - a)) (r * sin (PI / 2 - a)) /\
  mkpt (r * sin a) (r * cos a) <> mkpt (r * cos a) (r * sin a).
Proof.
  intros r a Hr Ha. rewrite cos_shift, sin_shift. split; [reflexivity|]. intro X.
  assert (r * sin a = r * cos a) as Y by congruence.
  assert (sin a = cos a) as Z by (apply Rmult_eq_reg_l with r; lra).
  pose proof PI_RGT_0.
  assert (sin a < sin (PI / 4)) by (apply sin_increasing_1; lra).
  assert (cos (PI / 4) < cos a) by (apply cos_decreasing_1; lra).
  rewrite cos_PI4, sin_PI4 in *. lra.
Qed.
Print Assumptions arc_angle_refuted.

(** ** A rate function that is plotted *)
Theorem mixture_hops : forall knn m g s si, knn_ok knn -> single_doped g s -> NoDup (positions g) ->
  nth_error (positions g) s = Some si -> (4 <= length (positions g))%nat ->
  Forall valid_component (gmm_components m) -> (exists c, In c (gmm_components m) /\ 0 < mix_weight c) ->
  exists idx rate, nearest_neighbors3 knn (positions g) si false = Ok idx /\
    three_nearest (positions g) s idx /\ hops_to (gmm_rate_function knn m) g idx rate.
Proof.
  intros knn m g s si K D N E L V X. destruct (neighbours_found knn g s si K D N E) as (_ & H).
  destruct (H L) as (idx & En & T & R).
  destruct (normalizing_factor_spec m V X) as (top & It & Pt & Mt & Ef).
  exists idx, (fun beam i => gmm_rate m (gmm_max_rate m / peak top) si (nth i (positions g) pzero) beam).
  split; [exact En|]. split; [exact T|]. intro beam.
  unfold gmm_rate_function. rewrite (single_silicon_single g s si D E). cbn [bind]. rewrite En. cbn [bind].
  unfold positions_at.
  destruct (take_idx_Some (positions g) idx) as (nbs & Et & Lt).
  { intros i Hi. destruct (tn_in _ _ _ T i Hi) as [p Hp]. apply nth_error_lt in Hp; auto. }
  rewrite Et. cbn [bind].
  destruct X as (c0 & Hc0 & _). destruct (gmm_components m) as [|c1 cs] eqn:Ec; [inversion Hc0|].
  rewrite <- Ec in *. rewrite Ef. cbn [bind].
  destruct (successors_total g (fun p => gmm_rate m (gmm_max_rate m / peak top) si p beam) idx nbs R) as [rs Er].
  exists rs. split; [exact Er|].
  destruct (successors_spec g (fun p => gmm_rate m (gmm_max_rate m / peak top) si p beam) idx nbs rs (proj1 D) Er) as (Lr & Kr); [lia|].
  apply nth_error_Forall2; [lia|]. intros k i [g' r] Hi Hr. destruct (Kr k g' r Hr) as (i' & p & Hi' & Hp & -> & P & D').
  assert (i' = i) by congruence. subst i'. cbn [fst snd]. split; [exact P|]. split; [exact D'|].
  rewrite (take_idx_nth _ _ _ _ Et), Hi in Hp. f_equal. symmetry. apply nth_error_nth. exact Hp.
Qed.
Print Assumptions mixture_hops.

(** a sheet and a rate function with all of these hypotheses *)
Example rate_plots_nonvacuous :
  let ps := [mkpt 1 1; mkpt 2 1; mkpt 0 2; mkpt 0 (-1)] in
  let g := mkgrid ps [14; 6; 6; 6]%Z in
  let rf : rate_function := fun g beam =>
    Ok [(mkgrid (positions g) [6; 14; 6; 6]%Z, 1); (mkgrid (positions g) [6; 6; 14; 6]%Z, px beam);
        (mkgrid (positions g) [6; 6; 6; 14]%Z, 3)] in
  single_doped g 0 /\ NoDup (positions g) /\ three_nearest (positions g) 0 [1; 2; 3]%nat /\
  hops_to rf (centred g (mkpt 1 1)) [1; 2; 3]%nat (fun beam i => match i with 1%nat => 1 | 2%nat => px beam | _ => 3 end).
Proof.
  cbv zeta.
  assert (SD : forall ps k ns, length ps = 4%nat -> (k < 4)%nat ->
    ns = map (fun i => if (i =? k)%nat then 14%Z else 6%Z) [0; 1; 2; 3]%nat -> single_doped (mkgrid ps ns) k).
  { intros ps k ns L Lk ->. split; [exact L|]. split; [exact Lk|]. cbn [numbers]. intros i z Hi.
    destruct k as [|[|[|[|]]]]; try lia; destruct i as [|[|[|[|i]]]]; cbn in Hi; try (destruct i; discriminate);
      injection Hi as <-; auto. }
  split; [apply SD; reflexivity || lia|].
  assert (Ne : forall a b c d : R, a <> c \/ b <> d -> mkpt a b <> mkpt c d) by (intros a b c d [X|X] Y; congruence).
  split.
  { cbn [positions]. repeat constructor; cbn [In]; intros F;
      repeat destruct F as [F|F]; try contradiction; revert F; apply Ne; (left; lra) || (right; lra). }
  split.
  { assert (D1 : pdist (mkpt 2 1) (mkpt 1 1) = sqrt 1) by (unfold pdist, pnorm, psq, psub; cbn; f_equal; ring).
    assert (D2 : pdist (mkpt 0 2) (mkpt 1 1) = sqrt 2) by (unfold pdist, pnorm, psq, psub; cbn; f_equal; ring).
    assert (D3 : pdist (mkpt 0 (-1)) (mkpt 1 1) = sqrt 5) by (unfold pdist, pnorm, psq, psub; cbn; f_equal; ring).
    constructor; cbn [positions].
    - reflexivity.
    - repeat constructor; cbn; intuition discriminate.
    - cbn. intuition discriminate.
    - intros i [<-|[<-|[<-|[]]]]; eexists; reflexivity.
    - intros a b i j p q c L Hc Ha Hb Hp Hq. injection Hc as <-.
      destruct a as [|[|[|a]]], b as [|[|[|b]]]; try lia; cbn in Ha, Hb; try (destruct a; discriminate); try (destruct b; discriminate);
        injection Ha as <-; injection Hb as <-; cbn in Hp, Hq; injection Hp as <-; injection Hq as <-;
        rewrite ?D1, ?D2, ?D3; apply sqrt_le_1_alt; lra.
    - intros i j p q c Hc Hi Nj Nj0 Hp Hq. exfalso.
      destruct j as [|[|[|[|j]]]]; cbn in Nj; try tauto; cbn in Hq; destruct j; discriminate. }
  intro beam. eexists. split; [reflexivity|]. cbn [centred positions numbers map].
  repeat (apply Forall2_cons; [split; [reflexivity|split; [apply SD; reflexivity || lia|reflexivity]]|]).
  apply Forall2_nil.
Qed.
