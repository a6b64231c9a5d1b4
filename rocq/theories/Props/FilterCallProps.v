(** C68: what one observation of the filtering aligner returns and leaves behind. *)
From Coq Require Import Reals ZArith List Bool Lia Lra Arith Permutation.
From Flocq Require Import Core.
From Verif Require Import Base.Prelude Base.Random Model.Geometry Model.MicroscopeUtils Model.Alignment
  Spec.Aligning Spec.Merging Spec.Clumps Spec.Colouring Spec.AlignSession
  Proofs.BaseFacts Proofs.RateFacts Proofs.AlignFacts Proofs.MergeFacts Proofs.ClumpFacts Proofs.ColouringFacts Proofs.FilterFacts
  Props.ColouringProps Props.AlignProps Props.MergeProps Props.ClumpProps Props.FilterProps Proofs.ExampleSampler.
Import ListNotations.
Open Scope R_scope.

Section Filter.
Context {G : Type}.
Variable s : sampler G.
Variable asort : argsort_fn.
Hypothesis Ha : argsort_ok asort.
Variable find : cliques_fn.
Hypothesis Hf : cliques_ok find.
Variable kmeans : list (list R) -> G -> (list R -> Z) * G.
Hypothesis Hk : forall rows g row, fst (kmeans rows g) row = 0%Z \/ fst (kmeans rows g) row = 1%Z.
Variable fp : filter_params.

Notation filter_call := (filter_call s asort find kmeans fp).
Notation filter_later := (filter_later s asort find fp).
Notation session := (session s asort find kmeans fp).
Notation classify := (classify_lattice_types asort).
(** the alignment of new positions with a history *)
Notation alignment ps labels st h g :=
  (align_latest s asort ps (flat_map (array h) (fs_observations st)) labels (concat (fs_classes st))
     (fp_alignment_iterations fp) (fp_noise_scale fp) (fp_max_shift fp) (Some 2) (fp_trim fp) (Some (Some pzero)) g).
Definition negated (d : vec) : vec := match d with Some d => Some (pneg d) | None => None end.

Lemma later_ok o st h g grid drift st' h' g' : filter_later o st h g = (Ok (grid, drift), st', h', g') ->
  exists c ps labels d kept kl,
    fs_classifier st = Some c /\ array h (gf_positions o) = points ps /\ classify (points ps) (Some c) = Ok labels /\
    fs_classes st <> [] /\
    al_result (alignment ps labels st h g) = Ok d /\ g' = al_rng (alignment ps labels st h g) /\ drift = negated d /\
    filter_merge find fp (fs_observations st ++ [length h]) (h ++ [map (fun p => vadd (Some p) d) ps]) = (Ok (gf_positions grid), h') /\
    (fp_accumulate_merged fp = true -> kept = gf_positions grid /\ classify (array h' (gf_positions grid)) (Some c) = Ok kl) /\
    (fp_accumulate_merged fp = false -> kept = length h /\ kl = labels) /\
    fs_observations st' = skipn (S (length (fs_observations st)) - fp_history_length fp) (fs_observations st ++ [kept]) /\
    fs_classes st' = skipn (S (length (fs_observations st)) - fp_history_length fp) (fs_classes st ++ [kl]) /\
    fs_classifier st' = Some c /\
    propagate_atomic_numbers (array h' (length h)) (array h' (gf_positions grid)) (gf_numbers o) None 6 (8 / 10) = Ok (gf_numbers grid).
Proof.
  unfold filter_later.
  destruct (fs_classifier st) as [c|]; [|destruct (classify_none asort (array h (gf_positions o))) as (e & ->); discriminate].
  destruct (classify (array h (gf_positions o)) (Some c)) as [labels| |] eqn:Ec; try discriminate.
  destruct (finite_rows (array h (gf_positions o))) as [ps|] eqn:Ef; [|discriminate].
  apply finite_rows_iff in Ef. rewrite Ef in Ec.
  destruct (fs_classes st) as [|c0 cs] eqn:Ecl; [discriminate|]. rewrite <- Ecl.
  destruct (al_result (alignment ps labels st h g)) as [d| |] eqn:Ea; try discriminate. unfold alloc.
  destruct (filter_merge find fp (fs_observations st ++ [length h]) (h ++ [map (fun p => vadd (Some p) d) ps])) as [rj h2] eqn:Em.
  destruct rj as [joined| |]; try discriminate.
  assert (Ecut : forall kept, (length (fs_observations st ++ [kept]) - fp_history_length fp = S (length (fs_observations st)) - fp_history_length fp)%nat)
      by (intros kept; rewrite app_length, Nat.add_comm; reflexivity).
  destruct (fp_accumulate_merged fp) eqn:Eacc.
  - destruct (classify (array h2 joined) (Some c)) as [kl| |] eqn:Ek; try discriminate. rewrite Ecut.
    destruct (propagate_atomic_numbers _ _ _ _ _ _) as [numbers| |] eqn:Ep; try discriminate.
    intros E. injection E as <- <- <- <- <-. exists c, ps, labels, d, joined, kl. cbn [gf_positions gf_numbers fs_observations fs_classes fs_classifier].
    repeat (split; [first [assumption|reflexivity|congruence|discriminate|auto]|]). exact Ep.
  - rewrite Ecut.
    destruct (propagate_atomic_numbers _ _ _ _ _ _) as [numbers| |] eqn:Ep; try discriminate.
    intros E. injection E as <- <- <- <- <-. exists c, ps, labels, d, (length h), labels. cbn [gf_positions gf_numbers fs_observations fs_classes fs_classifier].
    repeat (split; [first [assumption|reflexivity|congruence|discriminate|auto]|]). exact Ep.
Qed.

Lemma pnorm_neg v : pnorm (pneg v) = pnorm v.
Proof. unfold pnorm. f_equal. unfold psq, pneg. cbn. ring. Qed.

(** C68: every reported drift has norm at most max_shift, or is NaN *)
Theorem reported_drift_limited ops h g rs w grid drift : (1 <= fp_alignment_iterations fp)%nat -> 0 <= fp_max_shift fp ->
  session ops (filter_reset, h, g) = (rs, w) -> In (Ok (grid, drift)) rs ->
  match drift with Some d => pnorm d <= fp_max_shift fp | None => True end.
Proof.
  intros Hn Hm. generalize (filter_reset, h, g) as w0. clear h g. revert rs w. induction ops as [|op ops IH]; intros rs w w0; cbn [AlignSession.session].
  - intros E. injection E as <- <-. intros [].
  - destruct (do_op s asort find kmeans fp op w0) as [rs1 w1] eqn:E1. destruct (session ops w1) as [rs2 w2] eqn:E2.
    intros E. injection E as <- <-. intros Hin. apply in_app_or in Hin as [Hin|Hin]; [|eapply IH; eauto].
    clear IH E2. destruct w0 as [[st h] g]. destruct op as [|v|a|o]; cbn in E1.
    + injection E1 as <- <-. destruct Hin.
    + destruct (filter_apply_shift v st h). injection E1 as <- <-. destruct Hin.
    + injection E1 as <- <-. destruct Hin.
    + destruct (filter_call o st h g) as [[[r st1] h1] g1] eqn:Ec. injection E1 as <- <-. destruct Hin as [->|[]].
      unfold filter_call in Ec. destruct (fs_observations st) as [|r0 rs0].
      * apply (filter_first_cases asort Ha kmeans Hk) in Ec as (_ & _ & _ & _ & [(e & Q & _)|(l & c & Q & _)]); [discriminate|].
        injection Q as -> ->. rewrite (proj2 (pnorm_zero pzero) eq_refl). auto.
      * apply later_ok in Ec as (c & ps & labels & d & kept & kl & _ & _ & _ & _ & Ea & _ & -> & _).
        destruct d as [d|]; cbn [negated]; auto. rewrite pnorm_neg. eapply align_latest_limited; eauto.
Qed.

(** arrays with points *)
Lemma flat_map_holds h refs clouds : holds h refs clouds -> flat_map (array h) refs = points (concat clouds).
Proof.
  induction 1 as [|r c refs clouds Hr F IH]; cbn; auto. rewrite (array_at _ _ _ Hr), IH. unfold points. rewrite map_app. reflexivity.
Qed.
Lemma holds_snoc h refs clouds ps : holds h refs clouds -> holds (h ++ [points ps]) (refs ++ [length h]) (clouds ++ [ps]).
Proof.
  intros H. unfold holds. apply Forall2_snoc.
  - induction H as [|r c refs clouds Hr F IH]; constructor; auto. rewrite nth_error_app1 by (eapply nth_error_lt; eauto). auto.
  - rewrite nth_error_app2, Nat.sub_diag by auto. reflexivity.
Qed.
Lemma holds_lt h refs clouds r : holds h refs clouds -> In r refs -> (r < length h)%nat.
Proof. induction 1 as [|r0 c refs clouds Hr F IH]; intros []; subst; auto. eapply nth_error_lt; eauto. Qed.
Lemma filter_nonempty_all clouds : Forall (fun c => c <> []) clouds -> filter nonempty clouds = clouds.
Proof. induction 1 as [|c l N F IH]; cbn; auto. destruct c; [congruence|]. cbn. f_equal. auto. Qed.

(** what every later observation with a finite drift does, whatever the merging *)
Definition aligned_with (o : grid_ref) (st : filter_state) (g g' : G) (clouds : list (list pt)) (new : list pt) (labels : list Z) (v : pt) : Prop :=
  exists scales shared init,
    annealing (fp_noise_scale fp) (fp_alignment_iterations fp) scales /\
    iterations s new labels (concat clouds) (concat (fs_classes st)) (fp_max_shift fp) (Some 2) (fp_trim fp)
      scales (Some pzero) true (Some pzero) g (Some v) shared init g'.
(** atomic numbers: of the last observed atom that is nearest to an atom and
    less than 0.8 away, else carbon *)
Definition numbered (merged : list pt) (moved : list pt) (observed numbers : list Z) : Prop :=
  length numbers = length merged /\
  forall j z, nth_error numbers j = Some z ->
    exists zs, candidates merged (8 / 10) j (combine moved observed) zs /\ z = last zs 6%Z.

Lemma pneg_pneg d : pneg (pneg d) = d.
Proof. unfold pneg. destruct d. cbn. f_equal; ring. Qed.
Lemma numbered_ok h' shifted joined moved merged observed numbers :
  array h' shifted = points moved -> array h' joined = points merged -> merged <> [] ->
  propagate_atomic_numbers (array h' shifted) (array h' joined) observed None 6 (8 / 10) = Ok numbers ->
  numbered merged moved observed numbers.
Proof.
  intros E1 E2 N. rewrite E1, E2. intros E. destruct (Nat.eq_dec (length observed) (length moved)) as [L|L].
  - destruct (propagate_atomic_numbers_default moved merged observed N L) as (l & E' & L' & K).
    unfold points in E. rewrite E in E'. injection E' as <-. split; auto.
  - exfalso. destruct (propagate_atomic_numbers_spec moved merged observed None 6 (8 / 10)) as (_ & Q & _).
    unfold points in E. rewrite Q in E by auto. discriminate.
Qed.

Lemma aligned_ok o st h g clouds ps labels v : holds h (fs_observations st) clouds -> 0 <= fp_trim fp <= 1 ->
  al_result (alignment ps labels st h g) = Ok (Some v) ->
  aligned_with o st g (al_rng (alignment ps labels st h g)) clouds ps labels v.
Proof.
  intros Hh Ht. rewrite (flat_map_holds _ _ _ Hh). intros Ea.
  destruct (align_latest_runs s asort Ha ps (concat clouds) labels (concat (fs_classes st)) (fp_alignment_iterations fp)
    (fp_noise_scale fp) (fp_max_shift fp) (Some 2) (fp_trim fp) (Some (Some pzero)) g (Some v) Ht Ea) as (scales & An & It).
  eexists scales, _, _. split; [exact An|exact It].
Qed.

(** C68: a later observation is aligned with the whole history, moved, and
    merged with it by proximity; the moved copy joins the history.  The first
    array of the history is overwritten (C64). *)
Theorem observation_merged o st h g first rest cloud clouds grid d st' h' g' :
  fp_clique_merging fp = false -> fp_accumulate_merged fp = false -> 0 <= fp_trim fp <= 1 ->
  fs_observations st = first :: rest -> NoDup (first :: rest) ->
  holds h (first :: rest) (cloud :: clouds) -> Forall (fun c => c <> []) (cloud :: clouds) ->
  filter_call o st h g = (Ok (grid, Some d), st', h', g') ->
  exists ps labels groups content,
    let moved := map (fun p => padd p (pneg d)) ps in
    array h (gf_positions o) = points ps /\
    (exists c, fs_classifier st = Some c /\ classify (points ps) (Some c) = Ok labels) /\
    aligned_with o st g g' (cloud :: clouds) ps labels (pneg d) /\
    (* the merged grid *)
    takes_in_all (fp_merge_cutoff fp) (singletons cloud) (clouds ++ [moved]) groups /\
    nth_error h' (gf_positions grid) = Some (points (map pmean groups)) /\
    numbered (map pmean groups) moved (gf_numbers o) (gf_numbers grid) /\
    (* the history *)
    nth_error h' (length h) = Some (points moved) /\
    nth_error h' first = Some (points content) /\
    prefix_until_growth (fp_merge_cutoff fp) (singletons cloud) (clouds ++ [moved]) content /\
    (forall r, r <> first -> (r < length h)%nat -> nth_error h' r = nth_error h r) /\
    let cut := (S (S (length rest)) - fp_history_length fp)%nat in
    fs_observations st' = skipn cut (first :: rest ++ [length h]) /\
    fs_classes st' = skipn cut (fs_classes st ++ [labels]).
Proof.
  intros Ecm Eacc Ht Eo Nd Hh Ne E. unfold filter_call in E. rewrite Eo in E.
  apply later_ok in E as (c & ps & labels & d0 & kept & kl & Ec & Ep & El & Ncl & Ea & -> & Ed & Em & _ & Hkeep & Eo' & Ecl' & _ & Enum).
  destruct d0 as [v|]; [|discriminate]. cbn in Ed. injection Ed as ->. destruct (Hkeep Eacc) as [-> ->].
  rewrite Eo in Em, Eo', Ecl'. set (moved := map (fun p => padd p v) ps) in *.
  assert (Emv : map (fun p => padd p (pneg (pneg v))) ps = moved) by (rewrite pneg_pneg; reflexivity).
  replace (map (fun p => vadd (Some p) (Some v)) ps) with (points moved) in Em.
  2:{ unfold points, moved. rewrite map_map. reflexivity. }
  unfold filter_merge in Em. rewrite Ecm in Em.
  assert (Nps : moved <> []).
  { intros Q. unfold moved in Q. apply map_eq_nil in Q. subst ps. cbn in El. discriminate. }
  assert (Nd' : NoDup ((first :: rest) ++ [length h])).
  { apply NoDup_app_disjoint; auto; [repeat constructor; auto|]. intros x Hx [<-|[]].
    pose proof (holds_lt _ _ _ _ Hh Hx). lia. }
  pose proof (holds_snoc _ _ _ moved Hh) as Hh'.
  assert (Ne' : Forall (fun c => c <> []) ((cloud :: clouds) ++ [moved])) by (apply Forall_app; split; auto).
  destruct (naive_merge_groups (fp_merge_cutoff fp) _ _ _ Nd' Hh') as [[Q _]|K].
  { exfalso. inversion Ne; subst. destruct cloud; [congruence|discriminate]. }
  destruct K as (first0 & rest0 & cloud0 & clouds0 & groups & pos & h2 & content & E1 & E2 & T & E3 & P & Other & Cf & Pre & _).
  rewrite E3 in Em. cbn [fmap_res fst] in Em. injection Em as Epos <-.
  rewrite filter_nonempty_all in E2 by auto. cbn [app] in E2. injection E2 as <- <-.
  assert (Ef : first0 = first).
  { cbn [app filter] in E1. assert (Q : array (h ++ [points moved]) first = points cloud).
    { apply array_at. inversion Hh; subst. rewrite nth_error_app1 by (eapply nth_error_lt; eauto). auto. }
    rewrite Q, points_length in E1. inversion Ne; subst. destruct cloud; [congruence|]. cbn in E1. congruence. }
  subst first0. rewrite <- Epos in *.
  assert (Hlh : (first < length h)%nat) by (eapply holds_lt; [exact Hh|left; auto]).
  assert (Hm : nth_error h2 (length h) = Some (points moved)).
  { rewrite Other; [|lia|rewrite app_length; cbn; lia]. rewrite nth_error_app2, Nat.sub_diag by auto. reflexivity. }
  exists ps, labels, groups, content. cbv zeta. rewrite Emv.
  split; [auto|]. split; [eauto|]. split; [rewrite pneg_pneg; apply aligned_ok; auto; rewrite Eo; auto|].
  split; [auto|]. split; [auto|]. split.
  { eapply numbered_ok; [apply array_at; exact Hm|apply array_at; exact P| |exact Enum].
    intros Q. apply map_eq_nil in Q. pose proof (takes_in_all_perm _ _ _ _ T) as Pm. rewrite Q in Pm.
    inversion Ne; subst. destruct cloud; [congruence|]. apply Permutation_nil in Pm. discriminate. }
  split; [auto|]. split; [auto|]. split; [auto|]. split.
  { intros r Nr Lr. rewrite Other; auto; [|rewrite app_length; cbn; lia]. apply nth_error_app1; auto. }
  cbn [length] in Eo', Ecl'. auto.
Qed.

(** the same with merging by cliques, which leaves all arrays alone *)
Theorem observation_merged_by_cliques o st h g clouds grid d st' h' g' :
  fp_clique_merging fp = true -> fp_accumulate_merged fp = false -> 0 <= fp_trim fp <= 1 ->
  fs_observations st <> [] -> holds h (fs_observations st) clouds ->
  filter_call o st h g = (Ok (grid, Some d), st', h', g') ->
  exists ps labels merged counts,
    let moved := map (fun p => padd p (pneg d)) ps in
    let all := concat clouds ++ moved in
    array h (gf_positions o) = points ps /\
    (exists c, fs_classifier st = Some c /\ classify (points ps) (Some c) = Ok labels) /\
    aligned_with o st g g' clouds ps labels (pneg d) /\
    clumping (fp_merge_cutoff fp) 100 (all, repeat 1 (length all)) (merged, counts) /\
    h' = h ++ [points moved; points merged] /\ gf_positions grid = S (length h) /\
    numbered merged moved (gf_numbers o) (gf_numbers grid) /\
    let cut := (S (length (fs_observations st)) - fp_history_length fp)%nat in
    fs_observations st' = skipn cut (fs_observations st ++ [length h]) /\
    fs_classes st' = skipn cut (fs_classes st ++ [labels]).
Proof.
  intros Ecm Eacc Ht No Hh E. unfold filter_call in E. destruct (fs_observations st) as [|r0 rs0] eqn:Eo; [congruence|].
  apply later_ok in E as (c & ps & labels & d0 & kept & kl & Ec & Ep & El & Ncl & Ea & -> & Ed & Em & _ & Hkeep & Eo' & Ecl' & _ & Enum).
  rewrite <- Eo in *. clear r0 rs0 Eo.
  destruct d0 as [v|]; [|discriminate]. cbn in Ed. injection Ed as ->. destruct (Hkeep Eacc) as [-> ->].
  set (moved := map (fun p => padd p v) ps) in *.
  assert (Emv : map (fun p => padd p (pneg (pneg v))) ps = moved) by (rewrite pneg_pneg; reflexivity).
  replace (map (fun p => vadd (Some p) (Some v)) ps) with (points moved) in Em.
  2:{ unfold points, moved. rewrite map_map. reflexivity. }
  unfold filter_merge in Em. rewrite Ecm in Em.
  pose proof (holds_snoc _ _ _ moved Hh) as Hh'. rewrite (flat_map_holds _ _ _ Hh') in Em.
  replace (finite_rows (points (concat (clouds ++ [moved])))) with (Some (concat clouds ++ moved)) in Em.
  2:{ symmetry. apply finite_rows_iff. unfold points. rewrite concat_app. cbn. rewrite app_nil_r. reflexivity. }
  destruct (clique_merge find (concat clouds ++ moved) (fp_merge_cutoff fp) 100 None) as [merged counts] eqn:Eq.
  unfold alloc in Em. injection Em as Epos <-.
  pose proof (clique_merge_clumping find (concat clouds ++ moved) (fp_merge_cutoff fp) 100 None Hf) as Cl. rewrite Eq in Cl. clear Eq.
  assert (Nps : moved <> []).
  { intros Q. unfold moved in Q. apply map_eq_nil in Q. subst ps. cbn in El. discriminate. }
  assert (Nm : merged <> []).
  { apply clumping_nonempty in Cl; auto. cbn [fst]. intros Q. apply app_eq_nil in Q as [_ Q]. contradiction. }
  rewrite app_length in Epos. cbn [length] in Epos. rewrite Nat.add_1_r in Epos.
  exists ps, labels, merged, counts. cbv zeta. rewrite Emv.
  split; [auto|]. split; [eauto|]. split; [rewrite pneg_pneg; apply aligned_ok; auto|].
  split; [exact Cl|]. split; [rewrite <- app_assoc; reflexivity|]. split; [auto|]. split; [|auto].
  eapply numbered_ok; [| |exact Nm|exact Enum].
  - rewrite <- app_assoc. unfold array. rewrite app_nth2, Nat.sub_diag by auto. reflexivity.
  - rewrite <- Epos, <- app_assoc. unfold array. rewrite app_nth2 by auto.
    replace (S (length h) - length h)%nat with 1%nat by lia. reflexivity.
Qed.

Lemma first_nan_lt l : forall i k, first_nan i l = Some k -> (k < i + length l)%nat.
Proof.
  induction l as [|[x|] l IH]; cbn [first_nan]; intros i k E; [discriminate| |injection E as <-; cbn; lia].
  apply IH in E. cbn [length]. lia.
Qed.
Lemma nan_argmin_lt l k : nan_argmin l = Some k -> (k < length l)%nat.
Proof.
  unfold nan_argmin. destruct (first_nan 0 l) as [i|] eqn:E.
  - intros Q. injection Q as <-. apply first_nan_lt in E. lia.
  - intros Q. apply argmin_spec in Q as (Q & _). rewrite map_length in Q. exact Q.
Qed.
Lemma propagate_returns original merged numbers : merged <> [] -> length numbers = length original ->
  exists l, propagate_atomic_numbers original merged numbers None 6 (8 / 10) = Ok l.
Proof.
  intros N L. unfold propagate_atomic_numbers. destruct merged as [|m0 ms]; [congruence|].
  rewrite L, Nat.eqb_refl. cbn [negb].
  destruct (assign _ _) as [l|] eqn:Eas; eauto. exfalso. apply assign_None in Eas as ([j z] & Hin & Hj). revert Hj. cbn [fst].
  rewrite repeat_length. enough (j < length (m0 :: ms))%nat by lia. unfold closest_pairs in Hin. apply in_flat_map in Hin as (pz & _ & Hin).
  destruct (nan_argmin (map (vdist (fst pz)) (m0 :: ms))) as [k|] eqn:Ek; [|destruct Hin].
  destruct (nan_ltb _ _); [|destruct Hin]. destruct Hin as [Q|[]]. injection Q as <- _.
  apply nan_argmin_lt in Ek. rewrite map_length in Ek. exact Ek.
Qed.

Lemma later_aligns o st h g ps labels : array h (gf_positions o) = points ps ->
  classify (points ps) (fs_classifier st) = Ok labels -> fs_classes st <> [] ->
  let al := alignment ps labels st h g in
  (forall e, al_result al = Raise e -> filter_later o st h g = (Raise e, st, h, al_rng al)) /\
  (forall d joined h2, al_result al = Ok d -> fp_accumulate_merged fp = false ->
     filter_merge find fp (fs_observations st ++ [length h]) (h ++ [map (fun p => vadd (Some p) d) ps]) = (Ok joined, h2) ->
     fst (fst (fst (filter_later o st h g))) =
       fmap_res (fun numbers => (mkgrid_ref joined numbers, negated d))
         (propagate_atomic_numbers (array h2 (length h)) (array h2 joined) (gf_numbers o) None 6 (8 / 10))).
Proof.
  intros Ep El Nc al. unfold filter_later. rewrite Ep, El.
  replace (finite_rows (points ps)) with (Some ps) by (symmetry; apply finite_rows_iff; reflexivity).
  unfold al. destruct (fs_classes st) as [|c0 cs] eqn:Ecl; [congruence|]. rewrite <- Ecl. split.
  - intros e ->. reflexivity.
  - intros d joined h2 -> Eacc. unfold alloc. intros ->. rewrite Eacc.
    destruct (propagate_atomic_numbers _ _ _ _ _ _); reflexivity.
Qed.

(** C68: exactly when a later observation returns, merging by proximity and
    keeping raw observations: the classes it has must occur in the history *)
Theorem observation_returns o st h g n :
  fp_clique_merging fp = false -> fp_accumulate_merged fp = false ->
  fs_observations st <> [] -> in_order n st h ->
  forall c ps, fs_classifier st = Some c -> labels_zero_one c -> km_length c = 3%nat ->
  array h (gf_positions o) = points ps -> (3 <= length ps)%nat ->
  exists labels, classify (points ps) (Some c) = Ok labels /\
  ((0 < fp_alignment_iterations fp)%nat -> ~ classes_known labels (concat (fs_classes st)) ->
     fst (fst (fst (filter_call o st h g))) = Raise ValueError) /\
  ((fp_alignment_iterations fp = 0%nat \/ classes_known labels (concat (fs_classes st))) ->
   (length (gf_numbers o) = length ps -> exists grid drift, fst (fst (fst (filter_call o st h g))) = Ok (grid, drift)) /\
   (length (gf_numbers o) <> length ps -> fst (fst (fst (filter_call o st h g))) = Raise IndexError)).
Proof.
  intros Ecm Eacc No Ord c ps Ec Lc K3 Ep L3.
  destruct (classify_lattice_types_spec asort Ha ps c) as (_ & _ & C).
  destruct (C L3 K3 Lc) as (l0 & labels & bound & _ & El & Ll & Z01 & _). clear C l0.
  exists labels. split; [exact El|].
  assert (Ncl : fs_classes st <> []).
  { destruct Ord as [_ F]. intros Q. rewrite Q in F. inversion F. congruence. }
  assert (Unf : filter_call o st h g = filter_later o st h g).
  { unfold filter_call. destruct (fs_observations st); [congruence|reflexivity]. }
  rewrite Unf. change (map Some ps) with (points ps) in El. rewrite <- Ec in El.
  destruct (later_aligns o st h g ps labels Ep El Ncl) as [LR LO].
  assert (Nl : labels <> []) by (intros ->; cbn in Ll; lia).
  pose proof (in_order_total _ _ _ Ord) as Tot.
  assert (AR := align_latest_raises s asort ps (flat_map (array h) (fs_observations st)) labels (concat (fs_classes st))
    (fp_alignment_iterations fp) (fp_noise_scale fp) (fp_max_shift fp) (Some 2) (fp_trim fp) (Some (Some pzero)) g).
  cbv zeta in AR, LR, LO. split.
  - intros Hn Nk. destruct (AR ValueError) as [_ R]. rewrite (LR ValueError); [reflexivity|]. apply R.
    split; auto. right. right. repeat split; auto.
  - intros Known.
    destruct (al_result (alignment ps labels st h g)) as [d|e|] eqn:Ea.
    2:{ exfalso. destruct (AR e) as [_ R]. destruct (proj1 R eq_refl) as [Hn Q]. destruct Known as [Q0|Known]; [lia|].
        destruct Q as [[_ Q]|[(_ & _ & [Q|Q])|(_ & _ & _ & _ & Q)]]; [congruence|congruence| |contradiction].
        apply Q. exact Tot. }
    2:{ exfalso. destruct (AR ValueError) as [Q _]. contradiction. }
    specialize (LO d). unfold filter_merge in LO. rewrite Ecm in LO.
    destruct (naive_merge (fp_merge_cutoff fp) (fs_observations st ++ [length h]) (h ++ [map (fun p => vadd (Some p) d) ps])) as [rj h2] eqn:Em.
    destruct (naive_merge_lengths _ _ _ _ _ Em) as (SL & NF & Rj & Kj).
    assert (Anew : array (h ++ [map (fun p => vadd (Some p) d) ps]) (length h) = map (fun p => vadd (Some p) d) ps) by apply array_alloc_new.
    assert (Lsh : length (array h2 (length h)) = length ps).
    { destruct SL as [_ SL]. rewrite SL by (rewrite app_length; cbn; lia). rewrite Anew. apply map_length. }
    destruct rj as [[joined counts]|e|]; cbn [fmap_res fst] in LO.
    2:{ exfalso. destruct (Rj e eq_refl) as [_ Q]. specialize (Q (length h) ltac:(apply in_or_app; right; left; auto)).
        rewrite Anew in Q. apply map_eq_nil in Q. subst ps. cbn in L3. lia. }
    2:{ congruence. }
    destruct (Kj joined counts eq_refl) as [Nj _].
    rewrite (LO joined h2 eq_refl Eacc eq_refl). split; intros Ln.
    + destruct (propagate_returns (array h2 (length h)) (array h2 joined) (gf_numbers o) Nj ltac:(congruence)) as (l & ->). cbn. eauto.
    + unfold propagate_atomic_numbers. destruct (array h2 joined); [congruence|].
      replace (length (gf_numbers o) =? length (array h2 (length h)))%nat with false; [reflexivity|].
      symmetry. apply Nat.eqb_neq. congruence.
Qed.

(** * Lost observations *)
Lemma merge_rows_other cutoff pos m closest : forall current h counts new h' counts' new' r,
  merge_rows cutoff pos m current closest h counts new = (h', counts', new') -> r <> pos -> array h' r = array h r.
Proof.
  induction closest as [|[t d] closest IH]; intros current h counts new h' counts' new' r; cbn [merge_rows].
  - intros E. injection E as <- <- <-. auto.
  - destruct (nan_ltb d cutoff); intros E N; rewrite (IH _ _ _ _ _ _ _ r E N); auto.
    unfold set_row, array. rewrite nth_upd_other; auto.
Qed.
Lemma merge_arrays_other cutoff ms : forall pos h counts pos' counts' h' r,
  merge_arrays cutoff pos ms h counts = (pos', counts', h') -> r <> pos -> (r < length h)%nat -> array h' r = array h r.
Proof.
  induction ms as [|m ms IH]; intros pos h counts pos' counts' h' r; cbn [merge_arrays].
  - intros E. injection E as <- <- <-. auto.
  - destruct (merge_rows cutoff pos m 0 _ h counts []) as [[h1 counts1] new] eqn:Er. intros E N L.
    pose proof (merge_rows_other _ _ _ _ _ _ _ _ _ _ _ _ Er N) as Q.
    assert (L1 : length h1 = length h).
    { clear -Er. revert Er. generalize 0%nat (closest_rows (array h pos) (array h m)) (@nil nat). intros i cl. revert i h counts.
      induction cl as [|[t d] cl IH]; intros i h counts n; cbn [merge_rows]; [intros E; injection E as <- <- <-; auto|].
      destruct (nan_ltb d cutoff); intros E; apply IH in E; auto. rewrite E. unfold set_row. apply upd_length. }
    rewrite <- Q. destruct new as [|n0 new].
    + eapply IH; eauto. lia.
    + unfold alloc in E. rewrite <- (array_alloc_old h1 (array h1 pos ++ map (row h1 m) (n0 :: new)) r) by lia.
      eapply IH; [exact E|lia|rewrite app_length; lia].
Qed.
Lemma naive_merge_other cutoff first rest h r h' x : naive_merge cutoff (first :: rest) h = (x, h') ->
  array h first <> [] -> r <> first -> (r < length h)%nat -> array h' r = array h r.
Proof.
  unfold naive_merge. intros E Ne N L. cbn [filter] in E.
  replace (negb (length (array h first) =? 0)%nat) with true in E.
  2:{ symmetry. apply negb_true_iff, Nat.eqb_neq. destruct (array h first); [congruence|discriminate]. }
  destruct (merge_arrays _ _ _ _ _) as [[pos counts] h1] eqn:Em. injection E as <- <-.
  eapply merge_arrays_other; eauto.
Qed.
Lemma closest_pairs_nan n merged numbers threshold : closest_pairs (repeat None n) merged numbers threshold = [].
Proof.
  unfold closest_pairs. revert numbers. induction n as [|n IH]; intros [|z numbers]; cbn [repeat combine flat_map]; auto.
  rewrite IH, app_nil_r. cbn [fst snd]. destruct (nan_argmin _); auto.
Qed.

Lemma merge_arrays_snoc cutoff ms m : forall pos h counts,
  merge_arrays cutoff pos (ms ++ [m]) h counts =
  let '(pos, counts, h) := merge_arrays cutoff pos ms h counts in merge_arrays cutoff pos [m] h counts.
Proof.
  induction ms as [|m0 ms IH]; intros pos h counts; [reflexivity|]. cbn [app merge_arrays].
  destruct (merge_rows cutoff pos m0 0 _ h counts []) as [[h1 counts1] new]. destruct new; [apply IH|].
  unfold alloc. apply IH.
Qed.
Lemma merge_rows_nan cutoff pos m closest : Forall (fun td => snd td = None) closest -> forall current h counts new,
  merge_rows cutoff pos m current closest h counts new = (h, counts, new ++ seq current (length closest)).
Proof.
  induction 1 as [|[t d] closest Hd F IH]; intros current h counts new; cbn [merge_rows length seq]; [rewrite app_nil_r; auto|].
  cbn in Hd. subst d. cbn [nan_ltb]. rewrite IH, <- app_assoc. reflexivity.
Qed.
Lemma naive_merge_nan cutoff first rest m h k pos counts h' : naive_merge cutoff (first :: rest ++ [m]) h = (Ok (pos, counts), h') ->
  array h first <> [] -> first <> m -> (m < length h)%nat -> array h m = repeat None (S k) -> In None (array h' pos).
Proof.
  unfold naive_merge. intros E Ne N L Em. cbn [filter] in E.
  replace (negb (length (array h first) =? 0)%nat) with true in E.
  2:{ symmetry. apply negb_true_iff, Nat.eqb_neq. destruct (array h first); [congruence|discriminate]. }
  rewrite filter_app in E. cbn [filter] in E. rewrite Em, repeat_length in E. cbn [Nat.eqb negb] in E.
  rewrite merge_arrays_snoc in E. destruct (merge_arrays _ _ _ _ _) as [[pos1 counts1] h1] eqn:E1.
  apply (merge_arrays_other _ _ _ _ _ _ _ _ m) in E1; auto. rewrite Em in E1.
  cbn [merge_arrays] in E. rewrite merge_rows_nan in E.
  2:{ unfold closest_rows. rewrite E1. apply Forall_forall. intros td Hin. apply in_map_iff in Hin as (q & <- & Hq).
      apply repeat_spec in Hq. subst q. destruct (nan_argmin _); reflexivity. }
  unfold closest_rows in E. rewrite E1, map_length, repeat_length in E. cbn [seq app] in E. unfold alloc in E.
  injection E as <- <- <-. rewrite array_alloc_new. apply in_or_app. right. cbn [map]. left. unfold row. rewrite E1. reflexivity.
Qed.
Lemma classify_nan l c labels : In None l -> classify l (Some c) = Ok labels -> False.
Proof.
  intros N. unfold classify_lattice_types. destruct (_ <? _)%nat; [discriminate|].
  destruct (finite_rows l) as [ps|] eqn:E; [|discriminate]. apply finite_rows_iff in E. subst l.
  apply in_map_iff in N as (p & Q & _). discriminate.
Qed.
Lemma finite_rows_nan l : In None l -> finite_rows l = None.
Proof.
  intros N. destruct (finite_rows l) as [ps|] eqn:E; auto. apply finite_rows_iff in E. subst l.
  apply in_map_iff in N as (p & Q & _). discriminate.
Qed.
Lemma map_vadd_nan ps : map (fun p => vadd (Some p) None) ps = repeat (None : vec) (length ps).
Proof. induction ps as [|p ps IH]; cbn [map length repeat]; auto. rewrite IH. reflexivity. Qed.

(** C68: an observation too far from the history has no drift.  It is kept as
    an array of NaNs, and every atom returned is carbon; with merging by
    cliques, or accumulating, the call fails instead *)
Theorem observation_lost o st h g n grid st' h' g' :
  in_order n st h -> fs_observations st <> [] ->
  filter_call o st h g = (Ok (grid, None), st', h', g') ->
  fp_clique_merging fp = false /\ fp_accumulate_merged fp = false /\
  exists ps, array h (gf_positions o) = points ps /\
    array h' (length h) = repeat (None : vec) (length ps) /\
    fs_observations st' = skipn (S (length (fs_observations st)) - fp_history_length fp) (fs_observations st ++ [length h]) /\
    In None (array h' (gf_positions grid)) /\
    gf_numbers grid = repeat 6%Z (length (array h' (gf_positions grid))).
Proof.
  intros Ord No E. unfold filter_call in E. destruct (fs_observations st) as [|first rest] eqn:Eo; [congruence|].
  apply later_ok in E as (c & ps & labels & d & kept & kl & Ec & Ep & El & _ & Ea & _ & Ed & Em & K1 & K2 & Eo' & _ & _ & Enum).
  destruct d as [d|]; [discriminate|]. clear Ed Ea. rewrite map_vadd_nan in Em. rewrite Eo in Em, Eo'.
  assert (Nps : exists k, length ps = S k).
  { destruct ps as [|p0 ps]; [discriminate|]. exists (length ps). reflexivity. }
  destruct Nps as (k & Lps).
  pose proof (array_alloc_new h (repeat (None : vec) (length ps))) as Anew.
  destruct (fp_clique_merging fp) eqn:Ecm.
  { exfalso. unfold filter_merge in Em. rewrite Ecm in Em.
    rewrite finite_rows_nan in Em; [discriminate|]. apply in_flat_map. exists (length h). split; [apply in_or_app; right; left; auto|].
    rewrite Anew, Lps. left. reflexivity. }
  split; auto. unfold filter_merge in Em. rewrite Ecm in Em.
  destruct (naive_merge (fp_merge_cutoff fp) ((first :: rest) ++ [length h]) (h ++ [repeat (None : vec) (length ps)])) as [rj h2] eqn:En.
  destruct rj as [[joined counts]| |]; cbn [fmap_res fst] in Em; try discriminate. injection Em as -> <-.
  destruct Ord as [_ F]. rewrite Eo in F. inversion F as [|? lab ? ? (L1 & L2 & _) F']. subst.
  assert (Hfirst : (first < length h)%nat).
  { destruct (Nat.lt_ge_cases first (length h)) as [|Q]; auto. exfalso. unfold array in L1. rewrite nth_overflow in L1 by auto. cbn in L1. lia. }
  assert (Nf : array (h ++ [repeat (None : vec) (length ps)]) first <> []).
  { rewrite array_alloc_old by auto. intros Q. rewrite Q in L1. cbn in L1. lia. }
  cbn [app] in En.
  assert (Hin : In None (array h2 (gf_positions grid))).
  { eapply naive_merge_nan; [exact En|exact Nf|lia|rewrite app_length; cbn; lia|rewrite Anew, Lps; reflexivity]. }
  assert (Hkept : array h2 (length h) = repeat (None : vec) (length ps)).
  { rewrite (naive_merge_other _ _ _ _ _ _ _ En Nf); [exact Anew|lia|rewrite app_length; cbn; lia]. }
  destruct (fp_accumulate_merged fp) eqn:Eacc.
  { exfalso. destruct (K1 eq_refl) as [_ Q]. eapply classify_nan; eauto. }
  split; auto. exists ps. split; auto. split; auto. destruct (K2 eq_refl) as [-> _]. split; [exact Eo'|]. split; auto.
  rewrite Hkept in Enum. unfold propagate_atomic_numbers in Enum. rewrite closest_pairs_nan in Enum. cbn [assign] in Enum.
  destruct (array h2 (gf_positions grid)) as [|v0 vs]; [discriminate|].
  destruct (negb _); [discriminate|]. congruence.
Qed.

(** C68: with a NaN of each of its classes in the history, an observation is
    lost too *)
Lemma mean_offset_lost new (reference : list vec) nc rc limit trim d noise x : 0 <= trim ->
  (forall c, In c nc -> In (None : vec, c) (combine reference rc)) ->
  mean_offset asort new reference nc rc limit trim d noise = Ok x -> x = None.
Proof.
  intros Ht Hn. unfold mean_offset. set (cur := map _ new).
  destruct (classes_of nc) as [|c0 cs0] eqn:Ecs; [discriminate|]. rewrite <- Ecs.
  destruct (negb _); [discriminate|]. intros K.
  match type of K with (if negb ?b then _ else _) = _ => destruct b eqn:Lr end; cbn [negb] in K; [apply Nat.eqb_eq in Lr|discriminate].
  match type of K with bind (map_res ?f ?l) _ = _ => destruct (map_res f l) as [ys|e|] eqn:Em; cbn in K; try discriminate end.
  assert (Y : concat ys = []).
  { clear K. assert (Hc : forall c, In c (classes_of nc) -> In (None : vec, c) (combine reference rc)).
    { intros c Hin. apply Hn. unfold classes_of in Hin. apply nodup_In in Hin. auto. }
    clear Ecs. revert ys Em Hc. generalize (classes_of nc). clear - Lr. intros cs. induction cs as [|c cs IH]; intros ys Em Hc; cbn in Em.
    - injection Em as <-. reflexivity.
    - unfold get_offsets in Em at 1. destruct (mask_select (class_mask c rc) reference) as [|r rs] eqn:Es; [discriminate Em|].
      cbn [bind] in Em.
      match type of Em with bind ?r _ = _ => destruct r as [ys'|e|] eqn:Em'; cbn in Em; try discriminate end.
      injection Em as <-. cbn [concat]. rewrite (IH ys' eq_refl) by (intros; apply Hc; right; auto). rewrite app_nil_r.
      rewrite <- Es.
      assert (Hnan : In None (mask_select (class_mask c rc) reference)).
      { rewrite (select_class c reference rc Lr). apply in_map_iff. exists (None, c). split; auto.
        apply filter_In. split; [apply Hc; left; auto|]. cbn. apply Z.eqb_refl. }
      clear -Hnan. revert Hnan. generalize (mask_select (class_mask c rc) reference). intros l Hnan.
      induction (mask_select (class_mask c nc) cur) as [|v vs IH]; auto. cbn [flat_map]. rewrite IH, app_nil_r.
      unfold offset_to, nan_argmin.
      assert (Q : exists i, first_nan 0 (map (vdist v) l) = Some i /\ nth (i - 0) (map (vdist v) l) (Some 0) = None).
      { assert (Hin : In None (map (vdist v) l)) by (apply in_map_iff; exists None; split; auto; destruct v; reflexivity).
        revert Hin. clear. generalize 0%nat. induction (map (vdist v) l) as [|[x|] m IH]; intros i Hin; [destruct Hin| |]; cbn [first_nan].
        - destruct Hin as [Q|Hin]; [discriminate|]. destruct (IH (S i) Hin) as (j & E & N). exists j. split; auto.
          assert (S i <= j)%nat by (clear -E; revert i j E; induction m as [|[y|] m IH]; intros i j E; cbn in E; [discriminate| |injection E as <-; lia]; apply IH in E; lia).
          destruct (j - i)%nat as [|k] eqn:Ek; [lia|]. cbn. replace k with (j - S i)%nat by lia. exact N.
        - exists i. rewrite Nat.sub_diag. auto. }
      destruct Q as (i & -> & Q). rewrite Nat.sub_0_r in Q.
      destruct (Nat.lt_ge_cases i (length l)) as [Li|Li].
      + rewrite (nth_map_in _ l i None) in Q by auto. destruct (nth i l None), v; auto; discriminate.
      + rewrite nth_overflow in Q by (rewrite map_length; auto). discriminate. }
  rewrite Y in K. injection K as <-. unfold trim_offsets. destruct (Rltb 0 trim); auto.
  cbn [length map]. destruct (_ <? 0)%Z; cbn.
  - reflexivity.
  - replace ((1 - trim) * 0) with 0 by lra. rewrite Ztrunc_IZR. cbn. reflexivity.
Qed.

Lemma align_loop_lost new (reference : list vec) nc rc ms limit trim : 0 <= trim ->
  (forall c, In c nc -> In (None : vec, c) (combine reference rc)) ->
  forall scales d shared init g x, scales <> [] \/ d = None ->
  al_result (align_loop s asort new reference nc rc ms limit trim scales d shared init g) = Ok x -> x = None.
Proof.
  intros Ht Hn scales. induction scales as [|sc scales IH]; intros d shared init g x Hd; cbn [align_loop].
  - destruct Hd as [Q| ->]; [congruence|]. cbn. congruence.
  - destruct (draw_noise s sc g) as [noise g1].
    destruct (mean_offset asort new reference nc rc limit trim d noise) as [off|e|] eqn:Em; try discriminate.
    rewrite (mean_offset_lost _ _ _ _ _ _ _ _ _ Ht Hn Em).
    assert (Q : vadd d (vadd (Some noise) None) = None) by (destruct d; reflexivity).
    rewrite Q. cbn [clip_drift]. apply IH. auto.
Qed.

Theorem lost_stays_lost o st h g grid drift st' h' g' ps c labels :
  (1 <= fp_alignment_iterations fp)%nat -> 0 <= fp_trim fp -> fs_observations st <> [] ->
  array h (gf_positions o) = points ps -> fs_classifier st = Some c -> classify (points ps) (Some c) = Ok labels ->
  (forall z, In z labels -> In (None : vec, z) (combine (flat_map (array h) (fs_observations st)) (concat (fs_classes st)))) ->
  filter_call o st h g = (Ok (grid, drift), st', h', g') -> drift = None.
Proof.
  intros Hn Ht No Ep Ec El Hl E. unfold filter_call in E. destruct (fs_observations st) as [|first rest] eqn:Eo; [congruence|]. rewrite <- Eo in *.
  apply later_ok in E as (c' & ps' & labels' & d & kept & kl & Ec' & Ep' & El' & _ & Ea & _ & -> & _).
  assert (ps' = ps).
  { rewrite Ep in Ep'. unfold points in Ep'. clear -Ep'. revert ps' Ep'. induction ps as [|p ps IH]; intros [|q qs] Q; try discriminate; auto.
    cbn in Q. injection Q as -> Q. f_equal. auto. }
  subst ps'. assert (c' = c) by congruence. subst c'. assert (labels' = labels) by congruence. subst labels'.
  assert (d = None); [|subst d; reflexivity].
  unfold align_latest in Ea. eapply align_loop_lost; [exact Ht|exact Hl| |exact Ea].
  left. destruct (fp_alignment_iterations fp); [lia|discriminate].
Qed.

Lemma first_leaves o h g ps : (4 <= length ps)%nat -> array h (gf_positions o) = points ps ->
  exists st g1 c labels, filter_call o filter_reset h g = (Ok (o, Some pzero), st, h, g1) /\
    fs_observations st = [gf_positions o] /\ fs_classes st = [labels] /\ fs_classifier st = Some c /\
    km_length c = 3%nat /\ labels_zero_one c /\ classify (points ps) (Some c) = Ok labels /\
    in_order (fp_history_length fp) st h.
Proof.
  intros L4 Ep.
  destruct (filter_call o filter_reset h g) as [[[r st] h1] g1] eqn:E.
  pose proof E as E0.
  apply (first_observation s asort Ha find kmeans Hk fp o h g ps) in E0 as (-> & Eo & K4 & _); auto.
  destruct (K4 L4) as [-> (labels & Ecl & Ll & Z01)]. clear K4.
  assert (K : exists c, fs_classifier st = Some c /\ km_length c = 3%nat /\ labels_zero_one c /\ classify (points ps) (Some c) = Ok labels).
  { unfold filter_call in E. cbn [filter_reset fs_observations] in E. unfold filter_first in E. rewrite Ep in E.
    replace (finite_rows (points ps)) with (Some ps) in E by (symmetry; apply finite_rows_iff; reflexivity).
    destruct (get_lattice_clusterer_spec asort Ha kmeans ps g) as [_ B]. destruct (B ltac:(lia)) as (rows & _ & Eq). rewrite Eq in E. clear B Eq.
    set (c := mkclusterer _ _) in E. destruct (classify (points ps) (Some c)) as [l| |] eqn:El; try discriminate.
    injection E as <- <-. cbn [fs_classifier fs_classes] in *. injection Ecl as ->. exists c. split; auto.
    assert (Lc : labels_zero_one c) by (intros row; apply Hk).
    destruct (classify_cases asort (points ps) c Ha Lc) as [(e & Q)|(ps' & l' & _ & _ & _ & _ & K3 & _)]; [congruence|auto]. }
  destruct K as (c & Ec & K3 & Lc & El). exists st, g1, c, labels.
  do 7 (split; [auto|]). split.
  - rewrite Eo. cbn [length]. lia.
  - rewrite Eo, Ecl. constructor; [|constructor]. split; [rewrite Ep, points_length; auto|]. split; [lia|exact Z01].
Qed.

(** C68: observing the same positions again, from another array, always
    returns; its drift is finite or NaN *)
Theorem observing_again_returns o o' h g ps : (4 <= length ps)%nat ->
  fp_clique_merging fp = false -> fp_accumulate_merged fp = false ->
  array h (gf_positions o) = points ps -> array h (gf_positions o') = points ps -> length (gf_numbers o') = length ps ->
  exists grid drift w,
    session [op_observe o; op_observe o'] (filter_reset, h, g) = ([Ok (o, Some pzero); Ok (grid, drift)], w).
Proof.
  intros L4 Ecm Eacc Ep Ep' Ln.
  destruct (first_leaves o h g ps L4 Ep) as (st & g1 & c & labels & E & Eo & Ecl & Ec & K3 & Lc & El & Ord).
  destruct (observation_returns o' st h g1 (fp_history_length fp) Ecm Eacc ltac:(congruence) Ord c ps Ec Lc K3 Ep' ltac:(lia)) as (l' & El' & _ & R).
  assert (l' = labels) by congruence. subst l'.
  destruct R as [R _]; [right; rewrite Ecl; intros z Hz; cbn; rewrite app_nil_r; auto|].
  destruct (R Ln) as (grid & drift & ER).
  destruct (filter_call o' st h g1) as [[[r2 st2] h2] g2] eqn:E2. cbn [fst] in ER. subst r2.
  exists grid, drift, (st2, h2, g2).
  cbn [AlignSession.session do_op]. rewrite E. cbn [AlignSession.session do_op]. rewrite E2. reflexivity.
Qed.
End Filter.
Print Assumptions reported_drift_limited.
Print Assumptions observation_merged.
Print Assumptions observation_merged_by_cliques.
Print Assumptions observation_returns.
Print Assumptions observation_lost.
Print Assumptions lost_stays_lost.
Print Assumptions observing_again_returns.

(** C68, refuted: the arrays a caller gave are left alone.  Four atoms, observed
    a second time half an angstrom away: the caller's first array, and with it
    the history, changes. *)
Lemma four_merged p q : pdist q p < 11 / 10 ->
  exists x, naive_merge (11 / 10) [0%nat; 2%nat] [points [p; p; p; p]; points [q; q; q; q]; points [q; q; q; q]] =
  (Ok (0%nat, [5%nat; 1%nat; 1%nat; 1%nat]), [points [x; p; p; p]; points [q; q; q; q]; points [q; q; q; q]]) /\
  px x = (px p + 4 * px q) / 5.
Proof.
  intros D. eexists. split.
  - apply Rltb_true in D. unfold naive_merge. cbn -[Rltb pdist padd pscale INR Rdiv].
    assert (Rr : Rltb (pdist q p) (pdist q p) = false) by (apply Rltb_false; lra).
    unfold closest_rows. cbn -[Rltb pdist padd pscale INR Rdiv].
    unfold nan_argmin, argmin. cbn -[Rltb pdist padd pscale INR Rdiv]. repeat (rewrite ?Rr; cbn -[Rltb pdist padd pscale INR Rdiv]).
    repeat (rewrite ?D; cbn -[Rltb pdist padd pscale INR Rdiv]). reflexivity.
  - cbn. field.
Qed.
Theorem observations_keep_arrays_refuted :
  exists (s : sampler nat) asort find kmeans fp o o' h grid drift st h' g',
  argsort_ok asort /\ cliques_ok find /\
  (forall rows g row, fst (kmeans rows g) row = 0%Z \/ fst (kmeans rows g) row = 1%Z) /\
  session s asort find kmeans fp [op_observe o; op_observe o'] (filter_reset, h, 0%nat) =
    ([Ok (o, Some pzero); Ok (grid, drift)], (st, h', g')) /\
  array h' (gf_positions o) <> array h (gf_positions o).
Proof.
  set (p := mkpt 0 0). set (q := mkpt (1 / 2) 0).
  set (fp := mkfilter_params 10 0 0 2 (11 / 10) false false 0).
  set (km := fun (_ : list (list R)) (g : nat) => (fun _ : list R => 0%Z, g)).
  set (h := [points [p; p; p; p]; points [q; q; q; q]]).
  set (o := mkgrid_ref 0 [6; 6; 6; 6]%Z). set (o' := mkgrid_ref 1 [6; 6; 6; 6]%Z).
  assert (Hk : forall rows g row, fst (km rows g) row = 0%Z \/ fst (km rows g) row = 1%Z) by (intros; left; reflexivity).
  set (s := ex_sampler 1).
  destruct (first_leaves s argsort_stable argsort_stable_ok find_by_search km Hk fp o h 0%nat [p; p; p; p] ltac:(cbn; lia) eq_refl)
    as (st & g1 & c & labels & E & Eo & Ecl & Ec & K3 & Lc & El & Ord).
  destruct (observation_returns s argsort_stable argsort_stable_ok find_by_search km fp o' st h g1 10 eq_refl eq_refl ltac:(congruence) Ord c
    [q; q; q; q] Ec Lc K3 eq_refl ltac:(cbn; lia)) as (l' & El' & _ & R).
  destruct R as [R _]; [left; reflexivity|]. destruct (R eq_refl) as (grid & drift & ER).
  destruct (filter_call s argsort_stable find_by_search km fp o' st h g1) as [[[r2 st2] h2] g2] eqn:E2. cbn [fst] in ER. subst r2.
  exists s, argsort_stable, find_by_search, km, fp, o, o', h, grid, drift, st2, h2, g2.
  split; [apply argsort_stable_ok|]. split; [apply find_by_search_ok|]. split; [exact Hk|]. split.
  - cbn [AlignSession.session do_op]. rewrite E. cbn [AlignSession.session do_op]. rewrite E2. reflexivity.
  - unfold filter_call in E2. rewrite Eo in E2.
    apply later_ok in E2 as (c' & ps & lab & d & kept & kl & Ec' & Ep & El2 & _ & Ea & _ & Ed & Em & _).
    cbn in Ea. injection Ea as <-. rewrite Eo in Em.
    assert (Eps : ps = [q; q; q; q]).
    { change (points [q; q; q; q] = points ps) in Ep. clear -Ep. revert Ep. generalize [q; q; q; q]. intros l.
      revert ps; induction l as [|a l IH]; intros [|b ps] E; try discriminate; auto. cbn in E. injection E as -> E. f_equal. auto. }
    subst ps. cbn [filter_merge fp fp_clique_merging] in Em.
    assert (Eq : h ++ [map (fun p : pt => vadd (Some p) (Some pzero)) [q; q; q; q]] = [points [p; p; p; p]; points [q; q; q; q]; points [q; q; q; q]]).
    { assert (Q : padd q pzero = q) by (apply pt_eq; cbn; lra). unfold h, points. cbn [app map vadd]. rewrite Q. reflexivity. }
    rewrite Eq in Em.
    assert (D : pdist q p < 11 / 10) by (apply pdist_lt_sq; [lra|]; unfold psq, q, p; cbn; lra).
    destruct (four_merged p q D) as (x & Ex & Hx).
    change ([gf_positions o] ++ [length h]) with [0%nat; 2%nat] in Em. unfold filter_merge in Em. cbn [fp fp_clique_merging fp_merge_cutoff] in Em.
    rewrite Ex in Em. injection Em as _ <-. intros Q.
    change (points [x; p; p; p] = points [p; p; p; p]) in Q. injection Q as Q. subst x. revert Hx. unfold p, q. cbn [px]. lra.
Qed.
Print Assumptions observations_keep_arrays_refuted.

(** four atoms of graphene observed twice: the hypotheses of the theorems above hold *)
Example observation_nonvacuous :
  let ps := [mkpt 0 0; mkpt 1 0; mkpt 0 1; mkpt (-1) (-1)] in
  let h := [points ps; points ps] in
  let km := fun (_ : list (list R)) (g : nat) => (fun _ : list R => 0%Z, g) in
  let o := mkgrid_ref 0 [6; 6; 6; 14]%Z in
  exists grid drift w,
    session (ex_sampler 1) argsort_stable find_by_search km default_filter_params
      [op_observe o; op_observe (mkgrid_ref 1 [6; 6; 6; 14]%Z)] (filter_reset, h, 0%nat) =
    ([Ok (o, Some pzero); Ok (grid, drift)], w).
Proof.
  intros ps h km o.
  apply (observing_again_returns (ex_sampler 1) argsort_stable argsort_stable_ok find_by_search km) with (ps := ps); auto.
Qed.
