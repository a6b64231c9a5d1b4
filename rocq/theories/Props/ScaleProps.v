(** C99: the scale of a lattice *)
From Coq Require Import Reals List Bool Lia Lra Arith Permutation Sorting.Sorted.
From Verif Require Import Base.Prelude Model.Constants Model.Alignment Spec.Colouring Spec.Scale
  Proofs.BaseFacts Proofs.ClumpFacts Props.ColouringProps.
Import ListNotations.
Open Scope R_scope.

Lemma others_perm ps i : (i < length ps)%nat -> Permutation (map (pdist (nth i ps pzero)) ps) (0 :: to_others ps i).
Proof.
  intros Hi. unfold to_others.
  assert (E : map (pdist (nth i ps pzero)) ps = map (fun j => pdist (nth i ps pzero) (nth j ps pzero)) (seq 0 (length ps))).
  { rewrite <- (map_map (fun j => nth j ps pzero) (pdist (nth i ps pzero))). f_equal.
    clear. induction ps as [|p ps IH]; cbn; auto. f_equal. rewrite <- seq_shift, map_map. exact IH. }
  rewrite E. assert (P : Permutation (seq 0 (length ps)) (i :: filter (fun j => negb (Nat.eqb i j)) (seq 0 (length ps)))).
  { apply NoDup_Permutation.
    - apply seq_NoDup.
    - constructor; [|apply NoDup_filter, seq_NoDup]. intros H. apply filter_In in H. destruct H as [_ H]. rewrite Nat.eqb_refl in H. discriminate.
    - intros j. cbn. rewrite filter_In, !in_seq, negb_true_iff, Nat.eqb_neq. destruct (Nat.eq_dec i j); [subst; intuition lia|intuition lia]. }
  rewrite P at 1. cbn [map]. rewrite pdist_self. reflexivity.
Qed.
Lemma sorted_head x l m : StronglySorted Rle (x :: l) -> Permutation (x :: l) m -> (forall y, In y m -> 0 <= y) -> In 0 m -> x = 0.
Proof.
  intros H P N Z. assert (A : 0 <= x) by (apply N; rewrite <- P; left; auto). inversion H; subst.
  rewrite <- P in Z. destruct Z as [Z|Z]; auto. rewrite Forall_forall in H3. apply H3 in Z. lra.
Qed.
Lemma row_neighbours ps i : (i < length ps)%nat ->
  smallest 3 (to_others ps i) (firstn 3 (skipn 1 (rsort (map (pdist (nth i ps pzero)) ps)))).
Proof.
  intros Hi. pose proof (others_perm ps i Hi) as P. pose proof (rsort_perm (map (pdist (nth i ps pzero)) ps)) as Q.
  pose proof (rsort_sorted (map (pdist (nth i ps pzero)) ps)) as S.
  destruct (rsort (map (pdist (nth i ps pzero)) ps)) as [|x row].
  { apply Permutation_length in Q. cbn in Q. rewrite map_length in Q. lia. }
  assert (X : x = 0).
  { eapply sorted_head; [exact S|exact Q| |].
    - intros y Hy. apply in_map_iff in Hy. destruct Hy as (q & <- & _). apply pdist_nonneg.
    - rewrite P. left; auto. }
  subst x. assert (T : Permutation (to_others ps i) row) by (apply Permutation_cons_inv with 0; rewrite <- P, <- Q; reflexivity).
  cbn [skipn]. exists (skipn 3 row). rewrite firstn_skipn. split; [exact T|]. split.
  - rewrite firstn_length. f_equal. symmetry. apply Permutation_length. exact T.
  - apply sorted_split. inversion S; auto.
Qed.
Lemma rows_neighbours ps : neighbour_distances ps
  (concat (map (fun row => firstn 3 (skipn 1 row)) (map (fun p => rsort (map (pdist p) ps)) ps))).
Proof.
  eexists. split; [|reflexivity]. rewrite map_map.
  assert (E : map (fun p => firstn 3 (skipn 1 (rsort (map (pdist p) ps)))) ps
    = map (fun i => firstn 3 (skipn 1 (rsort (map (pdist (nth i ps pzero)) ps)))) (seq 0 (length ps))).
  { rewrite <- (map_map (fun i => nth i ps pzero) (fun p => firstn 3 (skipn 1 (rsort (map (pdist p) ps))))). f_equal.
    clear. induction ps as [|p ps IH]; cbn; auto. f_equal. rewrite <- seq_shift, map_map. exact IH. }
  rewrite E. assert (G : forall l, (forall i, In i l -> (i < length ps)%nat) ->
    Forall2 (fun i s => smallest 3 (to_others ps i) s) l (map (fun i => firstn 3 (skipn 1 (rsort (map (pdist (nth i ps pzero)) ps)))) l)).
  { induction l as [|i l IH]; intros H; cbn [map]; constructor.
    - apply row_neighbours. apply H. left; auto.
    - apply IH. intros j Hj. apply H. right; auto. }
  apply G. intros i Hi. apply in_seq in Hi. lia.
Qed.
Lemma trim_middle ds : ds <> [] -> exists m, trim_mean_quarter ds = Some m /\ middle_mean ds m.
Proof.
  intros N. assert (L : (0 < length ds)%nat) by (destruct ds; cbn; [contradiction|lia]).
  unfold trim_mean_quarter. cbv zeta. set (k := (length ds / 4)%nat).
  assert (K : (4 * k <= length ds < 4 * k + 4)%nat).
  { unfold k. clear. pose proof (Nat.div_mod (length ds) 4 (Nat.neq_succ_0 3)). pose proof (Nat.mod_upper_bound (length ds) 4 (Nat.neq_succ_0 3)). lia. }
  set (up := (length ds - k)%nat). set (r := rsort ds).
  assert (Lr : length r = length ds) by (apply Permutation_length, rsort_perm).
  assert (S : StronglySorted Rle r) by apply rsort_sorted.
  set (mid := skipn k (firstn up r)). assert (Lm : length mid = (length ds - 2 * k)%nat).
  { unfold mid. rewrite skipn_length, firstn_length. unfold up. lia. }
  assert (Nm : mid <> []) by (intros Q; rewrite Q in Lm; cbn [length] in Lm; lia).
  exists (rmean mid). split; [destruct mid; [contradiction|reflexivity]|].
  assert (Sp : r = firstn k r ++ mid ++ skipn up r).
  { rewrite <- (firstn_skipn up r) at 1. rewrite <- (firstn_skipn k (firstn up r)) at 1. rewrite firstn_firstn, Nat.min_l by (unfold up; lia).
    rewrite <- app_assoc. reflexivity. }
  exists (firstn k r), mid, (skipn up r). split; [rewrite <- Sp; symmetry; apply rsort_perm|].
  rewrite !firstn_length, skipn_length. split; [lia|]. split; [unfold up; lia|]. split; [|split; [|split; [exact Nm|reflexivity]]].
  - intros a b Ha Hb. apply (sorted_split k r S a b Ha).
    assert (E : skipn k r = mid ++ skipn up r).
    { apply (app_inv_head (firstn k r)). rewrite firstn_skipn. exact Sp. }
    rewrite E. exact Hb.
  - intros a b Ha Hb. apply (sorted_split up r S a b); auto. unfold mid in Ha. rewrite <- (firstn_skipn k (firstn up r)). apply in_or_app; auto.
Qed.

(** C99: the estimate is the mean of the distances to the three nearest atoms,
    without the smallest and the greatest quarter, in bond lengths *)
Theorem scale_factor ps : (2 <= length ps)%nat -> exists ds m, neighbour_distances ps ds /\ middle_mean ds m /\
  get_graphene_scale_factor ps = Some (m / (142 / 100)).
Proof.
  intros L. pose proof (rows_neighbours ps) as R. unfold get_graphene_scale_factor. cbv zeta.
  set (ds := concat _) in *. assert (N : ds <> []).
  { destruct R as (parts & F & E). rewrite E. destruct ps as [|p [|q ps]]; cbn in L; try lia.
    inversion F as [|? s ? parts' Hs _]; subst. destruct Hs as (rest & P & Q & _). cbn [concat]. destruct s as [|x s]; [|discriminate].
    cbn in Q. discriminate. }
  destruct (trim_middle ds N) as (m & E & M). exists ds, m. rewrite E. auto.
Qed.
Theorem scale_factor_nan ps : (length ps < 2)%nat -> get_graphene_scale_factor ps = None.
Proof. intros L. destruct ps as [|p [|q ps]]; cbn in L; try lia; reflexivity. Qed.

Lemma filter_perm_length {A} (f : A -> bool) l l' : Permutation l l' -> length (filter f l) = length (filter f l').
Proof. induction 1; cbn; try destruct (f x); try destruct (f y); cbn; congruence. Qed.
Lemma filter_none {A} (f : A -> bool) l : length (filter f l) = 0%nat -> forall x, In x l -> f x = false.
Proof. intros H x Hx. destruct (f x) eqn:E; auto. assert (I : In x (filter f l)) by (apply filter_In; auto). destruct (filter f l); [destruct I|discriminate]. Qed.
Lemma filter_full {A} (f : A -> bool) l : (forall x, In x l -> f x = true) -> length (filter f l) = length l.
Proof. induction l as [|a l IH]; cbn; intros H; auto. rewrite (H a) by auto. cbn. auto. Qed.
Lemma rsum_const d l : (forall x, In x l -> x = d) -> rsum l = INR (length l) * d.
Proof.
  induction l as [|x l IH]; intros H; cbn [rsum fold_right]; [cbn; ring|]. cbn [length]. rewrite S_INR.
  change (fold_right Rplus 0 l) with (rsum l). rewrite IH by (intros; apply H; right; auto). rewrite (H x) by (left; auto). ring.
Qed.
(** the mean of the middle half forgets outliers: at most a quarter on each side *)
Theorem middle_mean_robust ds m d : middle_mean ds m -> (4 * below d ds <= length ds)%nat -> (4 * above d ds <= length ds)%nat -> m = d.
Proof.
  intros (low & mid & high & P & L & Lh & O1 & O2 & N & ->) B A.
  assert (All : forall x, In x mid -> x = d).
  { intros x Hx. unfold below, above in *. rewrite (filter_perm_length _ _ _ P), !filter_app, !app_length in B. rewrite (filter_perm_length _ _ _ P), !filter_app, !app_length in A.
    apply Permutation_length in P as Lp.
    destruct (Rtotal_order x d) as [Q|[Q|Q]]; auto; exfalso.
    - rewrite (filter_full _ low) in B.
      2:{ intros y Hy. apply Rltb_true. assert (y <= x) by (apply O1; auto; apply in_or_app; auto). lra. }
      assert (I : In x (filter (fun x => Rltb x d) mid)) by (apply filter_In; split; auto; apply Rltb_true; auto).
      destruct (filter (fun x => Rltb x d) mid); [destruct I|]. cbn [length] in B. lia.
    - rewrite (filter_full _ high) in A.
      2:{ intros y Hy. apply Rltb_true. assert (x <= y) by (apply O2; auto). lra. }
      assert (I : In x (filter (fun x => Rltb d x) mid)) by (apply filter_In; split; auto; apply Rltb_true; auto).
      destruct (filter (fun x => Rltb d x) mid); [destruct I|]. cbn [length] in A. lia. }
  rewrite (rsum_const d mid All). field. apply not_0_INR. destruct mid; [contradiction|discriminate].
Qed.
Lemma smallest_counts d k l s s' : smallest k l s -> smallest k l s' -> below d s = below d s' /\ above d s = above d s' /\ length s = length s'.
Proof.
  intros (r & P & L & O) (r' & P' & L' & O').
  assert (T : Permutation (s ++ r) (s' ++ r')) by (rewrite <- P, <- P'; reflexivity).
  assert (LL : length s = length s') by congruence.
  assert (Lr : length r = length r') by (apply Permutation_length in T; rewrite !app_length in T; lia).
  assert (G : forall f, (forall x y, x <= y -> f y = true -> f x = true) \/ (forall x y, x <= y -> f x = true -> f y = true) ->
    length (filter f s) = length (filter f s')).
  { intros f Mono. pose proof (filter_perm_length f _ _ T) as F. rewrite !filter_app, !app_length in F.
    assert (C : forall (u v : list R), (forall a b, In a u -> In b v -> a <= b) ->
      (forall x y, x <= y -> f y = true -> f x = true) -> length (filter f v) = 0%nat \/ length (filter f u) = length u).
    { intros u v Ov M. destruct (filter f v) as [|b w] eqn:E; [left; auto|]. right. apply filter_full. intros a Ha.
      assert (Ib : In b (filter f v)) by (rewrite E; left; auto). apply filter_In in Ib. destruct Ib as [Ib Fb]. eapply M; eauto. }
    assert (D : forall (u v : list R), (forall a b, In a u -> In b v -> a <= b) ->
      (forall x y, x <= y -> f x = true -> f y = true) -> length (filter f u) = 0%nat \/ length (filter f v) = length v).
    { intros u v Ov M. destruct (filter f u) as [|a w] eqn:E; [left; auto|]. right. apply filter_full. intros b Hb.
      assert (Ia : In a (filter f u)) by (rewrite E; left; auto). apply filter_In in Ia. destruct Ia as [Ia Fa]. eapply M; eauto. }
    assert (U : forall (u : list R), (length (filter f u) <= length u)%nat).
    { induction u as [|a u IH]; cbn; auto. destruct (f a); cbn; lia. }
    pose proof (U s). pose proof (U s'). pose proof (U r). pose proof (U r').
    destruct Mono as [M|M].
    - destruct (C s r O M), (C s' r' O' M); lia.
    - destruct (D s r O M), (D s' r' O' M); lia. }
  split; [|split; [|auto]]; apply G.
  - left. intros x y H. rewrite !Rltb_true. lra.
  - right. intros x y H. rewrite !Rltb_true. lra.
Qed.
Lemma neighbour_counts d ps ds ds' : neighbour_distances ps ds -> neighbour_distances ps ds' ->
  below d ds = below d ds' /\ above d ds = above d ds' /\ length ds = length ds'.
Proof.
  intros (parts & F & ->) (parts' & F' & ->). revert parts' F'. induction F as [|i s l parts H F IH]; intros parts' F'; inversion F'; subst; auto.
  cbn [concat]. unfold below, above in *. rewrite !filter_app, !app_length.
  destruct (smallest_counts d _ _ _ _ H H2) as (A & B & C). destruct (IH _ H4) as (A' & B' & C'). unfold below, above in *. lia.
Qed.
(** C99: if at most a quarter of the distances to the nearest three are shorter
    than d, and at most a quarter longer, the estimate is exactly d in bond lengths *)
Theorem scale_exact ps ds d : (2 <= length ps)%nat -> neighbour_distances ps ds ->
  (4 * below d ds <= length ds)%nat -> (4 * above d ds <= length ds)%nat ->
  get_graphene_scale_factor ps = Some (d / (142 / 100)).
Proof.
  intros L N B A. destruct (scale_factor ps L) as (ds' & m & N' & M & E). rewrite E.
  destruct (neighbour_counts d _ _ _ N N') as (C1 & C2 & C3). rewrite (middle_mean_robust ds' m d M); auto; lia.
Qed.

(** an equilateral triangle with sides 2 *)
Example scale_nonvacuous : let ps := [mkpt 0 0; mkpt 2 0; mkpt 1 (sqrt 3)] in
  neighbour_distances ps [2; 2; 2; 2; 2; 2] /\ below 2 [2; 2; 2; 2; 2; 2] = 0%nat /\ above 2 [2; 2; 2; 2; 2; 2] = 0%nat /\
  get_graphene_scale_factor ps = Some (2 / (142 / 100)).
Proof.
  intros ps. assert (D : forall p q, psq (psub p q) = 2 * 2 -> pdist p q = 2).
  { intros p q E. unfold pdist, pnorm. rewrite E. apply sqrt_square. lra. }
  assert (T : sqrt 3 * sqrt 3 = 3) by (apply sqrt_sqrt; lra).
  assert (N : neighbour_distances ps [2; 2; 2; 2; 2; 2]).
  { exists [[2; 2]; [2; 2]; [2; 2]]. split; [|reflexivity].
    assert (G : forall i, (i < 3)%nat -> to_others ps i = [2; 2]).
    { intros i Hi. destruct i as [|[|[|i]]]; try lia; unfold to_others, ps; cbn [length seq filter Nat.eqb negb map nth];
        (f_equal; [apply D; unfold psq, psub; cbn [px py]; nra|f_equal; apply D; unfold psq, psub; cbn [px py]; nra]). }
    repeat (constructor; [rewrite G by (cbn; lia); exists []; split; [reflexivity|split; [reflexivity|intros a b _ []]]|]). constructor. }
  assert (Z : Rltb 2 2 = false) by (apply Rltb_false; lra).
  assert (B : below 2 [2; 2; 2; 2; 2; 2] = 0%nat) by (unfold below; cbn [filter]; rewrite !Z; reflexivity).
  assert (A : above 2 [2; 2; 2; 2; 2; 2] = 0%nat) by (unfold above; cbn [filter]; rewrite !Z; reflexivity).
  split; [exact N|]. split; [exact B|]. split; [exact A|]. apply (scale_exact ps [2; 2; 2; 2; 2; 2] 2); auto; [cbn; lia|rewrite B; cbn; lia|rewrite A; cbn; lia].
Qed.

Print Assumptions scale_factor.
Print Assumptions scale_factor_nan.
Print Assumptions middle_mean_robust.
Print Assumptions scale_exact.
