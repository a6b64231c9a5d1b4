From Coq Require Import Reals ZArith List Bool Lia Lra Arith Permutation.
From Verif Require Import Base.Prelude Base.Random Model.Geometry Model.Alignment
  Spec.Aligning Spec.Merging Spec.Clumps Spec.Colouring Spec.AlignSession
  Proofs.BaseFacts Proofs.RateFacts Proofs.AlignFacts Proofs.MergeFacts Proofs.ClumpFacts Proofs.ColouringFacts
  Props.ColouringProps Props.AlignProps Props.MergeProps Props.ClumpProps.
Import ListNotations.

(** * classification *)
Lemma classify_cases asort coords c : argsort_ok asort -> labels_zero_one c ->
  (exists e, classify_lattice_types asort coords (Some c) = Raise e) \/
  (exists ps labels, coords = map Some ps /\ classify_lattice_types asort coords (Some c) = Ok labels /\
     length labels = length coords /\ (3 <= length coords)%nat /\ km_length c = 3%nat /\ zero_one labels).
Proof.
  intros Ha Hc. destruct (finite_rows coords) as [ps|] eqn:Ef.
  - apply finite_rows_iff in Ef. subst coords.
    destruct (classify_lattice_types_spec asort Ha ps c) as (A & B & C).
    destruct (le_lt_dec 3 (length ps)) as [H3|H3]; [|left; rewrite A; eauto].
    destruct (Nat.eq_dec (km_length c) 3) as [Hk|Hk]; [|left; rewrite B; eauto].
    destruct (C H3 Hk Hc) as (labels & final & bound & _ & E & L & Z01 & _). right. exists ps, final.
    rewrite map_length. repeat split; auto.
  - left. destruct (le_lt_dec 3 (length coords)) as [H3|H3].
    + exists ValueError. unfold classify_lattice_types. replace (length coords <? 3)%nat with false by (symmetry; apply Nat.ltb_ge; auto).
      rewrite Ef. reflexivity.
    + exists AssertionError. unfold classify_lattice_types. replace (length coords <? 3)%nat with true by (symmetry; apply Nat.ltb_lt; auto). reflexivity.
Qed.
Lemma classify_none asort coords : exists e, classify_lattice_types asort coords None = Raise e.
Proof. unfold classify_lattice_types. destruct (length coords <? 3)%nat; [eauto|]. destruct (finite_rows coords); eauto. Qed.

(** * lengths of arrays under merging *)
Definition same_lengths (h h' : heap) : Prop :=
  (length h <= length h')%nat /\ forall r, (r < length h)%nat -> length (array h' r) = length (array h r).
Lemma same_lengths_refl h : same_lengths h h.
Proof. split; auto. Qed.
Lemma same_lengths_trans h1 h2 h3 : same_lengths h1 h2 -> same_lengths h2 h3 -> same_lengths h1 h3.
Proof. intros [A B] [C D]. split; [lia|]. intros r Hr. rewrite D by lia. auto. Qed.
Lemma array_upd h r r' a : (r < length h)%nat -> array (upd h r a) r' = if Nat.eqb r r' then a else array h r'.
Proof.
  intros H. unfold array. destruct (Nat.eqb_spec r r'); [subst; apply nth_upd_same; auto|apply nth_upd_other; auto].
Qed.
Lemma same_lengths_set_row h r i v : (r < length h)%nat -> same_lengths h (set_row h r i v).
Proof.
  intros H. unfold set_row. split; [rewrite upd_length; auto|]. intros r' Hr. rewrite array_upd by auto.
  destruct (Nat.eqb_spec r r'); [subst; apply upd_length|auto].
Qed.
Lemma array_alloc_old h a r : (r < length h)%nat -> array (h ++ [a]) r = array h r.
Proof. intros H. unfold array. apply app_nth1; auto. Qed.
Lemma array_alloc_new h a : array (h ++ [a]) (length h) = a.
Proof. unfold array. rewrite app_nth2, Nat.sub_diag by auto. reflexivity. Qed.
Lemma same_lengths_alloc h a : same_lengths h (h ++ [a]).
Proof. split; [rewrite app_length; cbn; lia|]. intros r H. rewrite array_alloc_old; auto. Qed.

Lemma merge_rows_lengths cutoff pos m : forall closest current h counts new h' counts' new', (pos < length h)%nat ->
  merge_rows cutoff pos m current closest h counts new = (h', counts', new') -> same_lengths h h'.
Proof.
  induction closest as [|[t d] closest IH]; intros current h counts new h' counts' new' Hp; cbn [merge_rows].
  - intros E. injection E as <- _ _. apply same_lengths_refl.
  - destruct (nan_ltb d cutoff); intros E.
    + apply IH in E.
      * eapply same_lengths_trans; [apply same_lengths_set_row; exact Hp|exact E].
      * unfold set_row. rewrite upd_length. auto.
    + eapply IH; eauto.
Qed.
Lemma merge_arrays_lengths cutoff : forall ms pos h counts pos' counts' h', (pos < length h)%nat ->
  merge_arrays cutoff pos ms h counts = (pos', counts', h') ->
  same_lengths h h' /\ (pos' < length h')%nat /\ (length (array h pos) <= length (array h' pos'))%nat.
Proof.
  induction ms as [|m ms IH]; intros pos h counts pos' counts' h' Hp; cbn [merge_arrays].
  - intros E. injection E as <- _ <-. split; [apply same_lengths_refl|auto].
  - destruct (merge_rows _ _ _ _ _ _ _ _) as [[h1 c1] new] eqn:E1. pose proof (merge_rows_lengths _ _ _ _ _ _ _ _ _ _ _ Hp E1) as S1.
    destruct new as [|n new].
    + intros E. apply IH in E; [|destruct S1; lia]. destruct E as (S2 & P & L). split; [eapply same_lengths_trans; eauto|].
      split; auto. destruct S1 as [_ S1]. rewrite <- (S1 pos Hp). auto.
    + unfold alloc. intros E. apply IH in E; [|rewrite app_length; cbn; lia]. destruct E as (S2 & P & L).
      split; [eapply same_lengths_trans; [exact S1|]; eapply same_lengths_trans; [apply same_lengths_alloc|exact S2]|].
      split; auto. rewrite array_alloc_new, app_length in L. destruct S1 as [_ S1]. rewrite <- (S1 pos Hp). lia.
Qed.
(** naive_merge leaves the lengths of arrays alone and returns at least as many
    points as any first array with points *)
Lemma naive_merge_lengths cutoff refs h r h' : naive_merge cutoff refs h = (r, h') ->
  same_lengths h h' /\ r <> OutOfFuel /\
  (forall e, r = Raise e -> h' = h /\ forall r, In r refs -> array h r = []) /\
  (forall pos counts, r = Ok (pos, counts) -> array h' pos <> [] /\
     forall first rest, refs = first :: rest -> (length (array h first) <= length (array h' pos))%nat).
Proof.
  unfold naive_merge. destruct (filter _ refs) as [|pos ms] eqn:Ef.
  - intros E. injection E as <- <-. split; [apply same_lengths_refl|]. split; [discriminate|]. split; [|discriminate].
    intros e _. split; auto. intros r Hr. destruct (array h r) eqn:Ea; auto. exfalso.
    assert (In r []) by (rewrite <- Ef; apply filter_In; rewrite Ea; auto). contradiction.
  - destruct (merge_arrays _ _ _ _ _) as [[pos' counts'] h1] eqn:Em. intros E. injection E as <- <-.
    assert (Hp : In pos refs /\ array h pos <> []).
    { assert (Q : In pos (filter (fun r => negb (length (array h r) =? 0)%nat) refs)) by (rewrite Ef; left; auto).
      apply filter_In in Q as [Q1 Q2]. split; auto. intros E0. rewrite E0 in Q2. discriminate. }
    destruct Hp as [Hin Hne].
    assert (Hlt : (pos < length h)%nat).
    { destruct (le_lt_dec (length h) pos); auto. exfalso. apply Hne. unfold array. apply nth_overflow; auto. }
    destruct (merge_arrays_lengths _ _ _ _ _ _ _ _ Hlt Em) as (S1 & P & L).
    split; auto. split; [discriminate|]. split; [discriminate|]. intros p c E. injection E as <- <-. split.
    + intros E0. rewrite E0 in L. cbn in L. destruct (array h pos); [congruence|cbn in L; lia].
    + intros first rest ->. destruct (array h first) as [|v a] eqn:Ea; [cbn; lia|].
      cbn [filter] in Ef. rewrite Ea in Ef. cbn in Ef. injection Ef as -> _. rewrite <- Ea. auto.
Qed.

(** a cloud merged by cliques does not vanish *)
Lemma clumping_nonempty r n st st' : clumping r n st st' -> fst st <> [] -> fst st' <> [].
Proof.
  induction 1 as [| |n coords counts cs result (i & j & N & Hn) Hc C IH]; auto. intros _. apply IH. cbn.
  destruct (in_a_clump coords r i) as (c & Hcl & _); [apply Hn|].
  destruct Hc as (_ & Ex & _). destruct (Ex c Hcl) as (c' & Hin & _). intros E. apply map_eq_nil in E. subst. contradiction.
Qed.

Section Filter.
Context {G : Type}.
Variable s : sampler G.
Variable asort : argsort_fn.
Hypothesis Ha : argsort_ok asort.
Variable find : cliques_fn.
Hypothesis Hf : cliques_ok find.
Variable kmeans : list (list R) -> G -> (list R -> Z) * G.
Hypothesis Hk : forall rows g row, fst (kmeans rows g) row = 0%Z \/ fst (kmeans rows g) row = 1%Z.
Variable fp : filter_params.

Notation filter_call := (filter_call s asort find kmeans fp).
Notation filter_first := (filter_first asort kmeans).
Notation filter_later := (filter_later s asort find fp).

Lemma filter_merge_cases refs h r h' : filter_merge find fp refs h = (r, h') ->
  same_lengths h h' /\ r <> OutOfFuel /\
  (forall joined, r = Ok joined -> (flat_map (array h) refs <> [] -> array h' joined <> [])).
Proof.
  unfold filter_merge. destruct (fp_clique_merging fp).
  - destruct (finite_rows (flat_map (array h) refs)) as [all|] eqn:Ea.
    + destruct (clique_merge find all (fp_merge_cutoff fp) 100 None) as [joined counts] eqn:Ec. unfold alloc.
      intros E. injection E as <- <-. split; [apply same_lengths_alloc|]. split; [discriminate|].
      intros j E. injection E as <-. intros N. rewrite array_alloc_new.
      pose proof (clique_merge_clumping find all (fp_merge_cutoff fp) 100 None Hf) as C. rewrite Ec in C. clear Ec.
      apply clumping_nonempty in C; cbn [fst] in C |- *.
      * intros E. apply map_eq_nil in E. contradiction.
      * intros ->. apply finite_rows_iff in Ea. contradiction.
    + intros E. injection E as <- <-. split; [apply same_lengths_refl|]. split; [discriminate|]. discriminate.
  - destruct (naive_merge (fp_merge_cutoff fp) refs h) as [r0 h0] eqn:En. destruct (naive_merge_lengths _ _ _ _ _ En) as (S & O & R & K).
    intros E. injection E as <- <-. split; auto. split.
    + destruct r0; cbn; congruence.
    + intros joined E _. destruct r0 as [[pos counts]| |]; cbn in E; try discriminate. injection E as <-. apply (K pos counts eq_refl).
Qed.

(** * one call *)

(** the first observation *)
Lemma filter_first_cases o st h g r st' h' g' : filter_first o st h g = (r, st', h', g') ->
  h' = h /\ fs_observations st' = [gf_positions o] /\ r <> OutOfFuel /\
  (forall c, fs_classifier st' = Some c -> labels_zero_one c \/ fs_classifier st = Some c) /\
  ((exists e, r = Raise e /\ fs_classes st' = fs_classes st) \/
   (exists labels c, r = Ok (o, Some pzero) /\ fs_classes st' = fs_classes st ++ [labels] /\
      length labels = length (array h (gf_positions o)) /\ (3 <= length labels)%nat /\ zero_one labels /\
      fs_classifier st' = Some c /\ km_length c = 3%nat)).
Proof.
  unfold filter_first.
  destruct (finite_rows (array h (gf_positions o))) as [grid|] eqn:Ef.
  2:{ intros E. injection E as <- <- <- <-. cbn. repeat (split; auto); try discriminate. left. eauto. }
  destruct (get_lattice_clusterer_spec asort Ha kmeans grid g) as [A B].
  destruct (le_lt_dec 2 (length grid)) as [H2|H2].
  2:{ rewrite A by auto. intros E. injection E as <- <- <- <-. cbn. repeat (split; auto); try discriminate. left. eauto. }
  destruct (B H2) as (rows & _ & ->). set (c := mkclusterer _ _).
  assert (Lc : labels_zero_one c) by (intros row; apply Hk).
  destruct (classify_cases asort (array h (gf_positions o)) c Ha Lc) as [(e & E1)|(ps & labels & _ & E1 & L & L3 & K & Z01)]; rewrite E1.
  - intros E. injection E as <- <- <- <-. cbn. split; auto. split; auto. split; [discriminate|].
    split; [intros c' E; injection E as <-; auto|]. left. eauto.
  - intros E. injection E as <- <- <- <-. cbn. split; auto. split; auto. split; [discriminate|].
    split; [intros c' E; injection E as <-; auto|]. right. exists labels, c. repeat split; auto; lia.
Qed.

(** every later observation *)
Lemma filter_later_cases o st h g r st' h' g' :
  (forall c, fs_classifier st = Some c -> labels_zero_one c) -> fs_observations st <> [] ->
  filter_later o st h g = (r, st', h', g') ->
  fs_classifier st' = fs_classifier st /\ same_lengths h h' /\ r <> OutOfFuel /\
  (* nothing happened *)
  ((st' = st /\ exists e, r = Raise e) \/
   (fs_classes st <> [] /\
    ((0 < fp_alignment_iterations fp)%nat -> length (concat (fs_classes st)) = length (flat_map (array h) (fs_observations st))) /\
    ((* an array was kept without labels *)
     (exists kept e, r = Raise e /\ fp_accumulate_merged fp = true /\ fs_observations st' = fs_observations st ++ [kept] /\
        fs_classes st' = fs_classes st /\ array h' kept <> []) \/
     (* the array and its labels were kept, the oldest was dropped *)
     (exists kept labels cut, cut = (S (length (fs_observations st)) - fp_history_length fp)%nat /\
        fs_observations st' = skipn cut (fs_observations st ++ [kept]) /\
        fs_classes st' = skipn cut (fs_classes st ++ [labels]) /\
        length (array h' kept) = length labels /\ (3 <= length labels)%nat /\ zero_one labels /\
        ((exists e, r = Raise e) \/ exists grid drift, r = Ok (grid, drift)))))).
Proof.
  intros Hc0 No. unfold filter_later.
  destruct (fs_classifier st) as [c|] eqn:Ec.
  2:{ destruct (classify_none asort (array h (gf_positions o))) as (e & ->). intros E. injection E as <- <- <- <-.
      split; [auto|]. split; [apply same_lengths_refl|]. split; [discriminate|]. left. eauto. }
  specialize (Hc0 c eq_refl).
  destruct (classify_cases asort (array h (gf_positions o)) c Ha Hc0) as [(e & E1)|(ps & labels & Eps & E1 & L & L3 & K & Z01)]; rewrite E1.
  { intros E. injection E as <- <- <- <-. split; [auto|]. split; [apply same_lengths_refl|]. split; [discriminate|]. left. eauto. }
  replace (finite_rows (array h (gf_positions o))) with (Some ps) by (symmetry; apply finite_rows_iff; auto).
  destruct (fs_classes st) as [|c0 cs] eqn:Ecl.
  { intros E. injection E as <- <- <- <-. split; [auto|]. split; [apply same_lengths_refl|]. split; [discriminate|]. left. eauto. }
  rewrite <- Ecl. assert (Ncl : fs_classes st <> []) by congruence. clear c0 cs Ecl.
  set (al := align_latest _ _ _ _ _ _ _ _ _ _ _ _ _).
  destruct (align_latest_raises s asort ps (flat_map (array h) (fs_observations st)) labels (concat (fs_classes st))
    (fp_alignment_iterations fp) (fp_noise_scale fp) (fp_max_shift fp) (Some 2%R) (fp_trim fp) (Some (Some pzero)) g IndexError) as [NF RI].
  fold al in NF, RI.
  destruct (al_result al) as [drift|e|] eqn:Eal; [| |congruence].
  2:{ intros E. injection E as <- <- <- <-. split; [auto|]. split; [apply same_lengths_refl|]. split; [discriminate|]. left. eauto. }
  assert (Tot : (0 < fp_alignment_iterations fp)%nat -> length (concat (fs_classes st)) = length (flat_map (array h) (fs_observations st))).
  { intros Hn. destruct (Nat.eq_dec (length (concat (fs_classes st))) (length (flat_map (array h) (fs_observations st)))) as [|N]; auto.
    exfalso. assert (Q : Ok drift = Raise IndexError) by (apply RI; split; auto; right; left; split; auto; split; [intros ->; cbn in L; lia|auto]). discriminate. }
  unfold alloc. set (shifted := map (fun p => vadd (Some p) drift) ps). set (h1 := h ++ [shifted]).
  assert (S1 : same_lengths h h1) by apply same_lengths_alloc.
  assert (Sh : array h1 (length h) = shifted) by apply array_alloc_new.
  assert (Ls : length shifted = length labels) by (unfold shifted; rewrite map_length, L, Eps, map_length; auto).
  destruct (filter_merge find fp (fs_observations st ++ [length h]) h1) as [rj h2] eqn:Em.
  destruct (filter_merge_cases _ _ _ _ Em) as (S2 & NF2 & Kj).
  assert (S12 : same_lengths h h2) by (eapply same_lengths_trans; eauto).
  destruct rj as [joined|e|]; [| |congruence].
  2:{ intros E. injection E as <- <- <- <-. split; [auto|]. split; auto. split; [discriminate|]. left. eauto. }
  assert (Nj : array h2 joined <> []).
  { apply (Kj joined eq_refl). rewrite flat_map_app. cbn. rewrite Sh, app_nil_r. intros E. apply app_eq_nil in E as [_ E].
    rewrite E in Ls. cbn [length] in Ls. rewrite <- Ls in L. pose proof L3 as L3'. rewrite <- L in L3'. lia. }
  assert (Lk : length (array h2 (length h)) = length labels).
  { destruct S2 as [_ S2]. rewrite S2 by (unfold h1; rewrite app_length; cbn; lia). rewrite Sh. auto. }
  (* what is kept *)
  assert (Fin : forall kept kl, length (array h2 kept) = length kl -> (3 <= length kl)%nat -> zero_one kl ->
    (let n := fp_history_length fp in let obs := fs_observations st ++ [kept] in let cls := fs_classes st ++ [kl] in
     let cut := (length obs - n)%nat in
     let st0 := mkfilter_state (skipn cut obs) (skipn cut cls) (Some c) in
     match propagate_atomic_numbers (array h2 (length h)) (array h2 joined) (gf_numbers o) None 6 (8 / 10) with
     | Raise e => (Raise e, st0, h2, al_rng al)
     | OutOfFuel => (OutOfFuel, st0, h2, al_rng al)
     | Ok numbers => (Ok (mkgrid_ref joined numbers, match drift with Some d => Some (pneg d) | None => None end), st0, h2, al_rng al)
     end) = (r, st', h', g') ->
    fs_classifier st' = Some c /\ same_lengths h h' /\ r <> OutOfFuel /\
    ((st' = st /\ exists e, r = Raise e) \/
     (fs_classes st <> [] /\
      ((0 < fp_alignment_iterations fp)%nat -> length (concat (fs_classes st)) = length (flat_map (array h) (fs_observations st))) /\
      ((exists kept e, r = Raise e /\ fp_accumulate_merged fp = true /\ fs_observations st' = fs_observations st ++ [kept] /\
        fs_classes st' = fs_classes st /\ array h' kept <> []) \/
       (exists kept labels cut, cut = (S (length (fs_observations st)) - fp_history_length fp)%nat /\
        fs_observations st' = skipn cut (fs_observations st ++ [kept]) /\
        fs_classes st' = skipn cut (fs_classes st ++ [labels]) /\
        length (array h' kept) = length labels /\ (3 <= length labels)%nat /\ zero_one labels /\
        ((exists e, r = Raise e) \/ exists grid drift, r = Ok (grid, drift))))))).
  { intros kept kl A B C. cbv zeta. intros E.
    assert (Np : propagate_atomic_numbers (array h2 (length h)) (array h2 joined) (gf_numbers o) None 6 (8 / 10) <> OutOfFuel).
    { unfold propagate_atomic_numbers. destruct (array h2 joined); [discriminate|].
      destruct (negb _); [discriminate|]. destruct (assign _ _); discriminate. }
    assert (Ecut : (length (fs_observations st ++ [kept]) - fp_history_length fp = S (length (fs_observations st)) - fp_history_length fp)%nat)
      by (rewrite app_length, Nat.add_comm; reflexivity).
    destruct (propagate_atomic_numbers _ _ _ _ _ _) as [numbers|e|]; [| |congruence]; injection E as <- <- <- <-; cbn [fs_classifier fs_observations fs_classes];
      (split; [auto|]; split; [auto|]; split; [discriminate|]; right; split; [auto|]; split; [auto|]; right;
       exists kept, kl; eexists; split; [reflexivity|]; rewrite Ecut; repeat split; auto; eauto). }
  destruct (fp_accumulate_merged fp) eqn:Eacc.
  - destruct (classify_cases asort (array h2 joined) c Ha Hc0) as [(e & E2)|(ps2 & kl & _ & E2 & L2 & L32 & _ & Z2)]; rewrite E2.
    + intros E. injection E as <- <- <- <-. cbn [fs_classifier fs_observations fs_classes]. split; [auto|]. split; auto. split; [discriminate|].
      right. split; auto. split; auto. left. exists joined, e. repeat split; auto.
    + apply Fin; [symmetry; exact L2|rewrite L2; exact L32|exact Z2].
  - apply Fin; [exact Lk|rewrite L; exact L3|exact Z01].
Qed.
End Filter.
