(** AtomicGrid.__eq__ and __hash__. *)
From Coq Require Import Reals ZArith List Bool Lia Lra Arith Permutation.
From Flocq Require Import Core.
From Verif Require Import Base.Prelude Base.Rounding Model.Geometry Model.MicroscopeUtils
  Spec.Grids Proofs.BaseFacts Proofs.GeometryFacts Proofs.RoundingFacts Proofs.FovFacts.
Import ListNotations.
Open Scope R_scope.

(** the i-th atom of g is a nearest atom of g to q *)
Definition nearest_atom (g : grid) (q : pt) (i : nat) (p : pt) (z : Z) : Prop :=
  nth_error (atoms g) i = Some (p, z) /\
  forall p' z', In (p', z') (atoms g) -> pdist p q <= pdist p' q.

Lemma atoms_nth g i p z : nth_error (atoms g) i = Some (p, z) <->
  nth_error (positions g) i = Some p /\ nth_error (numbers g) i = Some z.
Proof. apply nth_error_combine. Qed.

Lemma wf_nth g i : wf_grid g -> (i < length (positions g))%nat ->
  exists p z, nth_error (atoms g) i = Some (p, z).
Proof.
  intros W Hi. destruct (nth_error (positions g) i) as [p|] eqn:Ep.
  - destruct (nth_error (numbers g) i) as [z|] eqn:Ez.
    + exists p, z; apply atoms_nth; auto.
    + apply nth_error_None in Ez. unfold wf_grid in W; lia.
  - apply nth_error_None in Ep; lia.
Qed.

Section Eq.
Variable knn : knn_fn.
Hypothesis K : knn_ok knn.
Variables self other : grid.
Hypothesis Ws : wf_grid self.
Hypothesis Wo : wf_grid other.
Hypothesis Len : length (positions self) = length (positions other).
Hypothesis NE : positions self <> [].

Definition chosen (q : pt) : nat := hd 0%nat (knn 1%nat (positions self) q).

Lemma chosen_spec q : exists p z, nearest_atom self q (chosen q) p z.
Proof.
  destruct (knn1_nearest knn (positions self) q K NE) as (i & E & Hi & Hn).
  unfold chosen; rewrite E; simpl.
  destruct (wf_nth self i Ws Hi) as (p & z & H). exists p, z. split; auto.
  intros p' z' Hin. apply In_nth_error in Hin as [j Hj].
  apply atoms_nth in Hj as [Hj _]. pose proof (nth_error_lt _ _ _ Hj) as Hl.
  specialize (Hn j Hl). unfold dist_at in Hn.
  apply atoms_nth in H as [Hp _].
  rewrite (nth_error_nth_default _ _ pzero _ Hp), (nth_error_nth_default _ _ pzero _ Hj) in Hn.
  exact Hn.
Qed.

Lemma grid_eq_unfold :
  exists ns, take_idx (numbers self) (map chosen (positions other)) = Some ns /\
  grid_eq knn self other =
  Ok (negb (existsb (fun ab => negb (Z.eqb (fst ab) (snd ab))) (combine (numbers other) ns)) &&
      negb (existsb (fun qi => Rltb (1 / 1000) (dist_at (positions self) (fst qi) (snd qi)))
                    (combine (positions other) (map chosen (positions other))))).
Proof.
  destruct (take_idx_Some (numbers self) (map chosen (positions other))) as (ns & E & _).
  { intros i Hi. apply in_map_iff in Hi as (q & <- & _).
    destruct (chosen_spec q) as (p & z & H & _). apply atoms_nth in H as [_ H].
    eapply nth_error_lt; eauto. }
  exists ns; split; auto.
  unfold grid_eq. rewrite Len, Nat.eqb_refl.
  replace (length (numbers self)) with (length (numbers other))
    by (unfold wf_grid in *; lia).
  rewrite Nat.eqb_refl; cbn [negb].
  destruct (Nat.eqb_spec (length (positions other)) 0) as [H0|H0].
  { rewrite <- Len in H0. destruct (positions self); [contradiction|discriminate]. }
  fold chosen. rewrite E.
  destruct (existsb _ (combine (numbers other) ns)); cbn [negb andb]; auto.
  destruct (existsb _ (combine (positions other) _)); reflexivity.
Qed.

Lemma existsb_false_iff {A} (f : A -> bool) l :
  existsb f l = false <-> forall x, In x l -> f x = false.
Proof.
  split.
  - intros H x Hx. destruct (f x) eqn:E; auto.
    assert (existsb f l = true) by (apply existsb_exists; eauto). congruence.
  - intro H. destruct (existsb f l) eqn:E; auto.
    apply existsb_exists in E as (x & Hx & Hf). rewrite H in Hf; auto.
Qed.

(** equality holds exactly if every atom of [other] agrees with its chosen
    nearest atom *)
Lemma grid_eq_iff :
  grid_eq knn self other = Ok true <->
  forall i q z, nth_error (atoms other) i = Some (q, z) ->
    exists p, nth_error (atoms self) (chosen q) = Some (p, z) /\ pdist p q <= 1 / 1000.
Proof.
  destruct grid_eq_unfold as (ns & E & ->). split.
  - intro H. injection H; intro H'. apply andb_true_iff in H' as [H1 H2].
    rewrite negb_true_iff, existsb_false_iff in H1.
    rewrite negb_true_iff, existsb_false_iff in H2.
    intros i q z Hi. apply atoms_nth in Hi as [Hq Hz].
    destruct (chosen_spec q) as (p & z' & Hc & _). exists p.
    pose proof Hc as Hc'. apply atoms_nth in Hc' as [Hp Hz'].
    assert (Hns : nth_error ns i = Some z').
    { rewrite (take_idx_nth _ _ _ i E), nth_error_map, Hq; simpl; auto. }
    assert (z = z').
    { specialize (H1 (z, z')). simpl in H1. rewrite negb_false_iff in H1.
      apply Z.eqb_eq, H1. apply nth_error_In with i. apply nth_error_combine; auto. }
    subst z'. split; auto.
    specialize (H2 (q, chosen q)). simpl in H2. unfold dist_at in H2.
    rewrite (nth_error_nth_default _ _ pzero _ Hp) in H2.
    apply Rltb_false, H2. apply nth_error_In with i. apply nth_error_combine.
    rewrite nth_error_map, Hq; auto.
  - intro H. f_equal. apply andb_true_iff; split; rewrite negb_true_iff, existsb_false_iff.
    + intros [z z'] Hin. simpl. apply negb_false_iff, Z.eqb_eq.
      apply In_nth_error in Hin as [i Hi]. apply nth_error_combine in Hi as [Hz Hz'].
      rewrite (take_idx_nth _ _ _ i E), nth_error_map in Hz'.
      destruct (nth_error (positions other) i) as [q|] eqn:Hq; simpl in Hz'; [|discriminate].
      destruct (H i q z) as (p & Hc & _); [apply atoms_nth; auto|].
      apply atoms_nth in Hc as [_ Hc]. congruence.
    + intros [q c] Hin. simpl. apply Rltb_false.
      apply In_nth_error in Hin as [i Hi]. apply nth_error_combine in Hi as [Hq Hc].
      rewrite nth_error_map, Hq in Hc; simpl in Hc. injection Hc; intros <-.
      assert (Hl : (i < length (positions other))%nat) by (eapply nth_error_lt; eauto).
      destruct (wf_nth other i Wo Hl) as (q' & z & Ha).
      pose proof Ha as Ha'. apply atoms_nth in Ha' as [Hq' _].
      assert (q' = q) by congruence. subst q'.
      destruct (H i q z Ha) as (p & Hp & Hd). apply atoms_nth in Hp as [Hp _].
      unfold dist_at. rewrite (nth_error_nth_default _ _ pzero _ Hp). exact Hd.
Qed.
Lemma grid_eq_bool : exists b, grid_eq knn self other = Ok b.
Proof. destruct grid_eq_unfold as (ns & _ & ->); eauto. Qed.

Lemma grid_eq_sound : grid_eq knn self other = Ok true ->
  forall q z, In (q, z) (atoms other) ->
  exists p i, nearest_atom self q i p z /\ pdist p q <= 1 / 1000.
Proof.
  intros H q z Hin. apply In_nth_error in Hin as [i Hi].
  destruct (proj1 grid_eq_iff H i q z Hi) as (p & Hp & Hd).
  destruct (chosen_spec q) as (p' & z' & Hc & Hn).
  assert (Heq : (p', z') = (p, z)) by congruence. injection Heq; intros -> ->.
  exists p, (chosen q). split; [split|]; auto.
Qed.
Lemma grid_eq_complete :
  (forall q z, In (q, z) (atoms other) -> forall i p z', nearest_atom self q i p z' ->
     z' = z /\ pdist p q <= 1 / 1000) ->
  grid_eq knn self other = Ok true.
Proof.
  intro H. apply grid_eq_iff. intros i q z Hi.
  destruct (chosen_spec q) as (p & z' & Hc).
  destruct (H q z (nth_error_In _ _ Hi) _ _ _ Hc) as [-> Hd].
  exists p. destruct Hc as [Hc _]; auto.
Qed.
End Eq.

Lemma grid_eq_lengths knn self other :
  grid_eq knn self other = Ok true ->
  length (positions self) = length (positions other) /\
  length (numbers self) = length (numbers other).
Proof.
  unfold grid_eq. intro H.
  destruct (Nat.eqb_spec (length (positions self)) (length (positions other))); [|discriminate].
  simpl in H.
  destruct (Nat.eqb_spec (length (numbers self)) (length (numbers other))); [|discriminate].
  auto.
Qed.
Lemma grid_eq_diff knn self other :
  length (positions self) <> length (positions other) -> grid_eq knn self other = Ok false.
Proof.
  intro H; unfold grid_eq.
  destruct (Nat.eqb_spec (length (positions self)) (length (positions other))); [contradiction|].
  reflexivity.
Qed.
Lemma grid_eq_empty knn self other : wf_grid self -> wf_grid other ->
  positions self = [] -> positions other = [] -> grid_eq knn self other = Raise ValueError.
Proof.
  intros W W' H H'. unfold grid_eq, wf_grid in *. rewrite H, H' in *. simpl.
  rewrite <- W, <- W'. reflexivity.
Qed.

(** reordering *)
Lemma grid_eq_perm knn self other : knn_ok knn -> wf_grid self -> wf_grid other ->
  positions self <> [] -> NoDup (positions self) ->
  Permutation (atoms self) (atoms other) -> grid_eq knn self other = Ok true.
Proof.
  intros K Ws Wo NE ND P.
  assert (Len : length (positions self) = length (positions other)).
  { apply Permutation_length in P. unfold atoms in P. rewrite !combine_length in P.
    unfold wf_grid in *. lia. }
  apply grid_eq_complete; auto.
  intros q z Hin i p z' [Hi Hn].
  apply (Permutation_in _ (Permutation_sym P)) in Hin.
  assert (p = q).
  { specialize (Hn q z Hin). rewrite pdist_self in Hn.
    apply pdist_zero. pose proof (pdist_nonneg p q); lra. }
  subst p. split; [|rewrite pdist_self; lra].
  apply In_nth_error in Hin as [j Hj].
  apply atoms_nth in Hi as [Hi Hz]. apply atoms_nth in Hj as [Hj Hz'].
  assert (i = j).
  { apply (proj1 (NoDup_nth_error _) ND); [eapply nth_error_lt; eauto|congruence]. }
  subst; congruence.
Qed.

(** ** counterexamples *)
Lemma psq_dist p q r : 0 <= r -> psq (psub p q) = r * r -> pdist p q = r.
Proof. intros Hr E. unfold pdist, pnorm. rewrite E. apply sqrt_square; auto. Qed.

Definition asym_a : grid := mkgrid [mkpt 0 0; mkpt 10 0] [6%Z; 6%Z].
Definition asym_b : grid := mkgrid [mkpt 0 0; mkpt (1/2000) 0] [6%Z; 6%Z].

Lemma asym_true knn : knn_ok knn -> grid_eq knn asym_a asym_b = Ok true.
Proof.
  intro K. apply grid_eq_complete; auto; try reflexivity; try discriminate.
  intros q z Hin i p z' [Hi Hn]. unfold atoms in *. simpl in Hin.
  assert (D10 : forall x, 0 <= x <= 1 -> pdist (mkpt 0 0) (mkpt x 0) < pdist (mkpt 10 0) (mkpt x 0)).
  { intros x Hx. rewrite (psq_dist _ _ x), (psq_dist _ _ (10 - x)); unfold psq, psub; simpl; try lra; ring. }
  assert (Hq : exists x, 0 <= x <= 1 / 2000 /\ q = mkpt x 0 /\ z = 6%Z).
  { destruct Hin as [E|[E|[]]]; injection E; intros <- <-; eexists; repeat split; lra. }
  destruct Hq as (x & Hx & -> & ->).
  destruct i as [|[|[|i]]]; simpl in Hi; try discriminate.
  - injection Hi; intros <- <-. split; auto.
    rewrite (psq_dist _ _ x); unfold psq, psub; simpl; try lra; ring.
  - injection Hi; intros <- <-. exfalso.
    specialize (Hn (mkpt 0 0) 6%Z ltac:(simpl; auto)). specialize (D10 x ltac:(lra)). lra.
Qed.
Lemma asym_false knn : knn_ok knn -> grid_eq knn asym_b asym_a = Ok false.
Proof.
  intro K.
  destruct (grid_eq_bool knn K asym_b asym_a) as [[] E]; auto; try reflexivity; try discriminate.
  exfalso.
  apply (grid_eq_sound knn K asym_b asym_a) with (q := mkpt 10 0) (z := 6%Z) in E;
    try reflexivity; try discriminate; [|simpl; auto].
  destruct E as (p & i & [Hi _] & Hd). unfold atoms in Hi; simpl in Hi.
  destruct i as [|[|[|i]]]; simpl in Hi; try discriminate; injection Hi; intros; subst p.
  - rewrite (psq_dist _ _ 10) in Hd; unfold psq, psub; simpl; try lra.
  - rewrite (psq_dist _ _ (10 - 1/2000)) in Hd; unfold psq, psub; simpl; try lra.
Qed.

Lemma around2_ge x y : x + 2 / 100 <= y -> around2 x + 1 / 100 <= around2 y.
Proof.
  intro H. unfold around2.
  assert (E : (round_half_even (x * 100) + 1 <= round_half_even (y * 100))%Z).
  { pose proof (rhe_error (x * 100)) as H1. pose proof (rhe_error (y * 100)) as H2.
    apply Rabs_le_inv in H1, H2.
    assert (IZR (round_half_even (x * 100)) + 1 <= IZR (round_half_even (y * 100))) by lra.
    rewrite <- plus_IZR in H0. apply le_IZR in H0. exact H0. }
  apply IZR_le in E. rewrite plus_IZR in E. lra.
Qed.

Definition hash_a : grid := mkgrid [mkpt 30 0] [6%Z].
Definition hash_b : grid := mkgrid [mkpt (30 + 1/1000) 0] [6%Z].

Lemma modifier_ge_1 : 1 <= hash_modifier 6.
Proof.
  unfold hash_modifier, around2. pose proof PI2_3_2 as HP.
  assert (H1 : 1 <= powerRZ (PI / 3) 6).
  { change (powerRZ (PI / 3) 6) with ((PI / 3) ^ 6).
    apply pow_R1_Rle. lra. }
  assert (E : (100 <= round_half_even (powerRZ (PI / 3) 6 * 100))%Z).
  { apply Z.le_trans with (round_half_even (IZR 100)); [rewrite rhe_IZR; lia|].
    apply rhe_mono. lra. }
  apply IZR_le in E. lra.
Qed.
Lemma hash_differs : grid_hash hash_a <> grid_hash hash_b.
Proof.
  unfold grid_hash, hash_a, hash_b; simpl. unfold psq; simpl. rewrite !Rplus_0_r.
  set (m := hash_modifier 6). pose proof modifier_ge_1 as Hm; fold m in Hm.
  set (x := around2 (m * (30 * 30 + 0 * 0 + 1))).
  set (y := around2 (m * ((30 + 1 / 1000) * (30 + 1 / 1000) + 0 * 0 + 1))).
  assert (Hxy : x + 1 / 100 <= y) by (apply around2_ge; nra).
  intro E.
  assert (Ix : x * 100 = IZR (round_half_even (m * (30 * 30 + 0 * 0 + 1) * 100)))
    by (unfold x, around2; field).
  assert (Iy : y * 100 = IZR (round_half_even (m * ((30 + 1 / 1000) * (30 + 1 / 1000) + 0 * 0 + 1) * 100)))
    by (unfold y, around2; field).
  rewrite Ix, Iy, !rhe_IZR in E. rewrite E in Ix. lra.
Qed.
Lemma hash_equal knn : knn_ok knn -> grid_eq knn hash_a hash_b = Ok true.
Proof.
  intro K. apply grid_eq_complete; auto; try reflexivity; try discriminate.
  intros q z Hin i p z' [Hi Hn]. unfold atoms in *. simpl in Hin.
  destruct Hin as [E|[]]; injection E; intros <- <-.
  destruct i as [|[|i]]; simpl in Hi; try discriminate.
  injection Hi; intros <- <-. split; auto.
  rewrite (psq_dist _ _ (1/1000)); unfold psq, psub; simpl; try lra.
Qed.

(** reordering never changes the hash *)
Lemma hash_perm g g' : Permutation (atoms g) (atoms g') -> grid_hash g = grid_hash g'.
Proof.
  intro P. unfold grid_hash. f_equal. unfold atoms in P.
  induction P; simpl; auto; [rewrite IHP; auto|ring|congruence].
Qed.
