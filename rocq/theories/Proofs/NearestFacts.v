(** The nearest atoms of a place. *)
From Coq Require Import Reals ZArith List Bool Arith Lia Lra Permutation.
From Verif Require Import Base.Prelude Base.Rounding Model.Geometry Model.MicroscopeUtils Model.RateData Spec.Grids Spec.RateLearning
  Proofs.BaseFacts Proofs.GeometryFacts.
Import ListNotations.
Open Scope R_scope.

Lemma map_nth_seq {A} (l : list A) d : map (fun i => nth i l d) (seq 0 (length l)) = l.
Proof.
  induction l as [|x l IH]; auto. cbn [length seq map nth]. f_equal. rewrite <- seq_shift, map_map. exact IH.
Qed.

Lemma take_idx_map {A} (l : list A) idx d : (forall i, In i idx -> (i < length l)%nat) ->
  take_idx l idx = Some (map (fun i => nth i l d) idx).
Proof.
  induction idx as [|i idx IH]; intros H; auto. cbn. rewrite (nth_error_nth' l d) by (apply H; left; auto).
  rewrite IH by (intros; apply H; right; auto). auto.
Qed.

Lemma knn_nearest_atoms knn k (l : list (pt * Z)) c : knn_ok knn -> (k <= length l)%nat ->
  exists n, take_idx l (knn k (map fst l) c) = Some n /\ nearest_atoms k l c n.
Proof.
  intros K Hk. set (pts := map fst l). assert (Lp : length pts = length l) by apply map_length.
  assert (Hk' : (k <= length pts)%nat) by lia. set (idx := knn k pts c). set (d0 := (pzero, 0%Z)).
  assert (Rg : forall i, In i idx -> (i < length l)%nat) by (intros i Hi; rewrite <- Lp; apply (knn_range _ K k pts c); auto).
  exists (map (fun i => nth i l d0) idx). split; [apply take_idx_map; auto|].
  assert (D : forall i, dist_at pts c i = pdist (fst (nth i l d0)) c).
  { intros i. unfold dist_at, pts. change pzero with (fst d0). rewrite map_nth. auto. }
  split; [rewrite map_length; apply knn_length; auto|].
  exists (map (fun i => nth i l d0) (filter (fun i => negb (existsb (Nat.eqb i) idx)) (seq 0 (length l)))).
  assert (EX : forall i, existsb (Nat.eqb i) idx = true <-> In i idx).
  { intros i. rewrite existsb_exists. split; [intros (j & Hj & E); apply Nat.eqb_eq in E; congruence|exists i; rewrite Nat.eqb_refl; auto]. }
  split; [|split].
  - rewrite <- map_app. rewrite <- (map_nth_seq l d0) at 1. apply Permutation_map. apply NoDup_Permutation; [apply seq_NoDup| |].
    + apply NoDup_app_intro || idtac.
      assert (NA : forall (a b : list nat), NoDup a -> NoDup b -> (forall x, In x a -> ~ In x b) -> NoDup (a ++ b)).
      { induction a as [|x a IH]; intros b Na Nb Dj; auto. cbn. inversion_clear Na. constructor.
        - rewrite in_app_iff. intros [Hx|Hx]; [tauto|]. apply (Dj x); cbn; auto.
        - apply IH; auto. intros y Hy. apply Dj. right; auto. }
      apply NA; [apply (knn_nodup _ K); auto|apply NoDup_filter, seq_NoDup|].
      intros x Hx Hf. apply filter_In in Hf as [_ Hf]. apply EX in Hx. rewrite Hx in Hf. discriminate.
    + intros x. rewrite in_app_iff, filter_In, in_seq. split.
      * intros Hx. destruct (existsb (Nat.eqb x) idx) eqn:E; [left; apply EX; auto|right; split; auto].
      * intros [Hx|[Hx _]]; auto. specialize (Rg _ Hx). lia.
  - intros i j a b Hij Ea Eb. rewrite nth_error_map in Ea, Eb.
    destruct (nth_error idx i) as [i'|] eqn:Ei; [|discriminate]. destruct (nth_error idx j) as [j'|] eqn:Ej; [|discriminate].
    cbn in Ea, Eb. injection Ea as <-. injection Eb as <-. rewrite <- !D. apply (knn_sorted _ K k pts c i j); auto.
  - intros a b Ha Hb. apply in_map_iff in Ha as (i & <- & Hi). apply in_map_iff in Hb as (j & <- & Hj).
    apply filter_In in Hj as [Hj Nj]. apply in_seq in Hj. rewrite <- !D. apply (knn_nearest _ K k pts c); auto; [lia|].
    intros Hin. apply EX in Hin. fold idx in Nj. rewrite Hin in Nj. discriminate.
Qed.

Lemma nearest_firstn k m l c n : (m <= k)%nat -> nearest_atoms k l c n -> nearest_atoms m l c (firstn m n).
Proof.
  intros Hm (L & rest & P & Sorted & Rest). split; [rewrite firstn_length; lia|]. exists (skipn m n ++ rest).
  split; [rewrite app_assoc, firstn_skipn; auto|]. split.
  - intros i j a b Hij Ea Eb. assert (Hj : (j < m)%nat) by (apply nth_error_lt in Eb; rewrite firstn_length in Eb; lia).
    rewrite nth_error_firstn in Ea, Eb by lia. eauto.
  - intros a b Ha Hb. assert (Ha' : In a n) by (rewrite <- (firstn_skipn m n); apply in_or_app; auto).
    apply in_app_iff in Hb as [Hb|Hb]; auto. apply In_nth_error in Ha as (i & Ea). apply In_nth_error in Hb as (j & Eb).
    assert (Hi : (i < m)%nat) by (apply nth_error_lt in Ea; rewrite firstn_length in Ea; lia).
    rewrite nth_error_firstn in Ea by lia. apply (Sorted i (m + j)%nat); auto; [lia|].
    rewrite <- (firstn_skipn m n). rewrite nth_error_app2; rewrite firstn_length; [|lia].
    replace (m + j - Nat.min m (length n))%nat with j by lia. auto.
Qed.

(** how many atoms are at a distance with a property *)
Definition count_dist (f : R -> bool) (c : pt) (l : list (pt * Z)) : nat := length (filter (fun a => f (pdist (fst a) c)) l).
Lemma Permutation_filter' {A} (f : A -> bool) l l' : Permutation l l' -> Permutation (filter f l) (filter f l').
Proof.
  induction 1; cbn; auto.
  - destruct (f x); auto.
  - destruct (f x), (f y); auto. apply perm_swap.
  - eapply perm_trans; eauto.
Qed.
Lemma count_perm f c l l' : Permutation l l' -> count_dist f c l = count_dist f c l'.
Proof. intros P. apply Permutation_length, Permutation_filter'. auto. Qed.
Lemma filter_all {A} (f : A -> bool) l : (forall x, In x l -> f x = true) -> filter f l = l.
Proof. induction l as [|x l IH]; intros H; auto. cbn. rewrite H by (left; auto). f_equal. apply IH. intros; apply H; right; auto. Qed.
Lemma filter_none {A} (f : A -> bool) l : (forall x, In x l -> f x = false) -> filter f l = [].
Proof. induction l as [|x l IH]; intros H; auto. cbn. rewrite H by (left; auto). apply IH. intros; apply H; right; auto. Qed.
Lemma filter_length_le' {A} (f : A -> bool) l : (length (filter f l) <= length l)%nat.
Proof. induction l as [|x l IH]; auto. cbn. destruct (f x); cbn; lia. Qed.

Lemma nearest_count f k l c n i a : (forall d e, d <= e -> f e = true -> f d = true) ->
  nearest_atoms k l c n -> nth_error n i = Some a -> (f (pdist (fst a) c) = true <-> (i < count_dist f c l)%nat).
Proof.
  intros Mono (L & rest & P & Sorted & Rest) Ea. rewrite (count_perm _ _ _ _ P). unfold count_dist.
  assert (Hi : (i < length n)%nat) by (apply nth_error_lt in Ea; auto).
  destruct (nth_error_split n i Ea) as (l1 & l2 & E & Ll).
  assert (Before : forall b, In b l1 -> pdist (fst b) c <= pdist (fst a) c).
  { intros b Hb. apply In_nth_error in Hb as (j & Ej). assert (j < length l1)%nat by (apply nth_error_lt in Ej; auto).
    apply (Sorted j i); auto; [lia|]. rewrite E, nth_error_app1; auto. }
  assert (After : forall b, In b (l2 ++ rest) -> pdist (fst a) c <= pdist (fst b) c).
  { intros b Hb. apply in_app_iff in Hb as [Hb|Hb].
    - apply In_nth_error in Hb as (j & Ej). apply (Sorted i (S i + j)%nat); auto; [lia|].
      rewrite E, nth_error_app2 by lia. replace (S i + j - length l1)%nat with (S j) by lia. auto.
    - apply Rest; auto. eapply nth_error_In; eauto. }
  rewrite E. rewrite <- app_assoc. cbn [app]. rewrite filter_app, app_length. split.
  - intros Fa. rewrite (filter_all _ l1) by (intros b Hb; apply (Mono _ _ (Before b Hb)); auto).
    cbn [filter]. rewrite Fa. cbn [length]. lia.
  - intros H. destruct (f (pdist (fst a) c)) eqn:Fa; auto. exfalso. cbn [filter] in H. rewrite Fa in H.
    rewrite (filter_none _ (l2 ++ rest)) in H.
    + pose proof (filter_length_le' (fun a => f (pdist (fst a) c)) l1). cbn in H. lia.
    + intros b Hb. destruct (f (pdist (fst b) c)) eqn:Fb; auto. rewrite (Mono _ _ (After b Hb) Fb) in Fa. discriminate.
Qed.

Lemma Rleb_mono x d e : d <= e -> Rleb e x = true -> Rleb d x = true.
Proof. intros H1 H2. rb. lra. Qed.
Lemma Rltb_mono x d e : d <= e -> Rltb e x = true -> Rltb d x = true.
Proof. intros H1 H2. rb. lra. Qed.

(** the distances do not depend on the choice *)
Lemma nearest_unique k l c n n' i a b : nearest_atoms k l c n -> nearest_atoms k l c n' ->
  nth_error n i = Some a -> nth_error n' i = Some b -> pdist (fst a) c = pdist (fst b) c.
Proof.
  assert (W : forall n n' a b, nearest_atoms k l c n -> nearest_atoms k l c n' ->
     nth_error n i = Some a -> nth_error n' i = Some b -> pdist (fst b) c <= pdist (fst a) c).
  { clear. intros n n' a b N N' Ea Eb. apply Rleb_true.
    apply (nearest_count (fun d => Rleb d (pdist (fst a) c)) _ _ _ _ _ _ (Rleb_mono _) N' Eb).
    apply (nearest_count (fun d => Rleb d (pdist (fst a) c)) _ _ _ _ _ _ (Rleb_mono _) N Ea).
    rb; lra. }
  intros N N' Ea Eb. apply Rle_antisym; eauto.
Qed.

(** * Threefold and fourfold silicons *)
Definition distances (n : list (pt * Z)) (c : pt) : list R := map (fun a => pdist c (fst a)) n.
Lemma nth_distances n c i a : nth_error n i = Some a -> nth i (distances n c) 0 = pdist (fst a) c.
Proof. intros E. apply nth_error_nth. unfold distances. rewrite nth_error_map, E. cbn. f_equal. apply pdist_sym. Qed.

Lemma len10 {A} (n : list A) : length n = 10%nat -> exists x0 x1 x2 x3 x4 x5 x6 x7 x8 x9, n = [x0; x1; x2; x3; x4; x5; x6; x7; x8; x9].
Proof. intros H. do 10 (destruct n as [|? n]; [discriminate|]). destruct n; [|discriminate]. do 10 eexists. reflexivity. Qed.

Lemma threefold_count l c : threefold l c <->
  count_dist (fun d => Rltb d 2) c l = 4%nat /\ count_dist (fun d => Rleb d 2) c l = 4%nat.
Proof.
  split.
  - intros (near & far & P & L & Near & Far). rewrite !(count_perm _ _ _ _ P). unfold count_dist. rewrite !filter_app, !app_length.
    rewrite !(filter_all _ near), !(filter_none _ far); cbn; [lia| | | |].
    all: intros a Ha; try (specialize (Near a Ha)); try (specialize (Far a Ha)); rb; lra.
  - intros [C1 C2]. exists (filter (fun a => Rltb (pdist (fst a) c) 2) l), (filter (fun a => negb (Rltb (pdist (fst a) c) 2)) l).
    split; [|split; [exact C1|split]].
    + clear. induction l as [|x l IH]; auto. cbn. destruct (Rltb _ 2); cbn; [apply perm_skip, IH|].
      eapply perm_trans; [apply perm_skip, IH|]. apply Permutation_middle.
    + intros a Ha. apply filter_In in Ha as [_ Ha]. rb. auto.
    + intros a Ha. apply filter_In in Ha as [Ha Hn].
      destruct (Rltb (pdist (fst a) c) 2) eqn:E1; [discriminate|]. rb.
      destruct (Rlt_dec 2 (pdist (fst a) c)) as [|N]; auto. exfalso.
      assert (In a (filter (fun a => Rleb (pdist (fst a) c) 2) l)) as Hin by (apply filter_In; split; auto; rb; lra).
      assert (EQ : (count_dist (fun d => Rltb d 2) c l < count_dist (fun d => Rleb d 2) c l)%nat); [|lia].
      clear C1 C2 Hin Hn. unfold count_dist. induction l as [|x l IH]; [destruct Ha|].
      assert (LE : (length (filter (fun a => Rltb (pdist (fst a) c) 2) l) <= length (filter (fun a => Rleb (pdist (fst a) c) 2) l))%nat).
      { clear. induction l as [|y l IH]; auto. cbn. destruct (Rltb _ 2) eqn:A1, (Rleb _ 2) eqn:A2; cbn; try lia. rb; lra. }
      cbn. destruct Ha as [->|Ha].
      * destruct (Rltb _ 2) eqn:A1; [rb; lra|]. destruct (Rleb _ 2) eqn:A2; [|rb; lra]. cbn. lia.
      * specialize (IH Ha). destruct (Rltb _ 2) eqn:A1, (Rleb _ 2) eqn:A2; cbn; try lia. rb; lra.
Qed.

Lemma is_threefold_iff l c n : nearest_atoms 10 l c n -> (exists a, In a l /\ fst a = c) ->
  (is_threefold (distances n c) = true <-> threefold l c).
Proof.
  intros N (s & Hs & Es). rewrite threefold_count.
  assert (F : forall i a, nth_error n i = Some a -> Rltb (pdist (fst a) c) 2 = true <-> (i < count_dist (fun d => Rltb d 2) c l)%nat).
  { intros i a. apply (nearest_count (fun d => Rltb d 2) _ _ _ _ _ _ (Rltb_mono 2) N). }
  assert (G : forall i a, nth_error n i = Some a -> Rleb (pdist (fst a) c) 2 = true <-> (i < count_dist (fun d => Rleb d 2) c l)%nat).
  { intros i a. apply (nearest_count (fun d => Rleb d 2) _ _ _ _ _ _ (Rleb_mono 2) N). }
  assert (LE : (count_dist (fun d => Rltb d 2) c l <= count_dist (fun d => Rleb d 2) c l)%nat).
  { clear. unfold count_dist. induction l as [|y l IH]; auto. cbn. destruct (Rltb _ 2) eqn:A1, (Rleb _ 2) eqn:A2; cbn; try lia. rb; lra. }
  destruct N as (L & _). apply len10 in L as (x0 & x1 & x2 & x3 & x4 & x5 & x6 & x7 & x8 & x9 & ->).
  unfold is_threefold, distances. cbn [map firstn skipn forallb]. rewrite !andb_true_iff. rewrite !(pdist_sym c).
  split.
  - intros ((A1 & A2 & A3 & _) & A4 & _). apply (F 3%nat x3 eq_refl) in A3.
    assert (~ (4 < count_dist (fun d => Rleb d 2) c l)%nat) as B4 by (rewrite <- (G 4%nat x4 eq_refl); intros B; rb; lra). lia.
  - intros [C1 C2]. rewrite C1 in F. rewrite C2 in G. repeat split.
    + apply (F 1%nat x1 eq_refl). lia.
    + apply (F 2%nat x2 eq_refl). lia.
    + apply (F 3%nat x3 eq_refl). lia.
    + assert (B : Rleb (pdist (fst x4) c) 2 <> true) by (rewrite (G 4%nat x4 eq_refl); lia). apply not_true_is_false in B. rb. auto.
    + assert (B : Rleb (pdist (fst x5) c) 2 <> true) by (rewrite (G 5%nat x5 eq_refl); lia). apply not_true_is_false in B. rb. auto.
    + assert (B : Rleb (pdist (fst x6) c) 2 <> true) by (rewrite (G 6%nat x6 eq_refl); lia). apply not_true_is_false in B. rb. auto.
    + assert (B : Rleb (pdist (fst x7) c) 2 <> true) by (rewrite (G 7%nat x7 eq_refl); lia). apply not_true_is_false in B. rb. auto.
    + assert (B : Rleb (pdist (fst x8) c) 2 <> true) by (rewrite (G 8%nat x8 eq_refl); lia). apply not_true_is_false in B. rb. auto.
    + assert (B : Rleb (pdist (fst x9) c) 2 <> true) by (rewrite (G 9%nat x9 eq_refl); lia). apply not_true_is_false in B. rb. auto.
Qed.

Lemma is_fourfold_iff l c n : nearest_atoms 10 l c n -> (is_fourfold (distances n c) = true <-> fourfold l c).
Proof.
  intros N. pose proof (nearest_firstn 10 5 l c n ltac:(lia) N) as N5.
  pose proof N as (L & rest & _ & Sorted & _). apply len10 in L as (x0 & x1 & x2 & x3 & x4 & x5 & x6 & x7 & x8 & x9 & En).
  assert (Le : pdist (fst x1) c <= pdist (fst x4) c) by (apply (Sorted 1%nat 4%nat); subst n; auto).
  unfold is_fourfold. rewrite (nth_distances n c 1 x1), (nth_distances n c 4 x4) by (subst n; auto).
  rewrite Rltb_true, Rabs_left1 by lra. split.
  - intros H. exists (firstn 5 n), x1, x4. split; auto. subst n. repeat split; auto. lra.
  - intros (n' & a & b & N' & Ea & Eb & H).
    rewrite <- (nearest_unique 5 l c (firstn 5 n) n' 1 x1 a N5 N') in H by (subst n; auto).
    rewrite <- (nearest_unique 5 l c (firstn 5 n) n' 4 x4 b N5 N') in H by (subst n; auto). lra.
Qed.
