(** C125: synthetic transitions *)
From Coq Require Import Reals ZArith List Bool Lia Lra Arith String.
From Flocq Require Import Core.
From Verif Require Import Base.Prelude Base.Rounding Base.Matrix Model.Constants Model.Geometry Model.MicroscopeUtils Model.DataUtils
  Model.LearnRates Model.SyntheticData Spec.Augmenting Spec.SyntheticData Proofs.BaseFacts Proofs.GeometryFacts Proofs.GaussianFacts
  Props.AugmentProps.
Import ListNotations.
Local Open Scope R_scope.

(** * picking *)
Lemma rsum_pos_firstn l n : Forall (fun x => 0 < x) l -> 0 <= rsum (firstn n l).
Proof. intros H. revert n. induction H; intros [|n]; try (cbn; lra). specialize (IHForall n). cbn [firstn]. change (rsum (x :: firstn n l)) with (x + rsum (firstn n l)). lra. Qed.

Lemma cumsum_picks l : Forall (fun x => 0 < x) l -> forall a r, a < r <= a + rsum l ->
  exists before w after, l = before ++ w :: after /\
    length before = length (filter (fun c => Rltb c r) (map (fun i => a + rsum (firstn (S i) l)) (seq 0 (length l)))) /\
    a + rsum before < r <= a + rsum before + w.
Proof.
  induction 1 as [|x l Hx Hl IH]; intros a r Hr; [cbn in Hr; lra|].
  cbn [length seq map]. rewrite <- seq_shift, map_map.
  replace (map (fun i => a + rsum (firstn (S (S i)) (x :: l))) (seq 0 (length l)))
    with (map (fun i => (a + x) + rsum (firstn (S i) l)) (seq 0 (length l)))
    by (apply map_ext; intros i; change (firstn (S (S i)) (x :: l)) with (x :: firstn (S i) l); change (rsum (x :: firstn (S i) l)) with (x + rsum (firstn (S i) l)); lra).
  change (firstn 1 (x :: l)) with [x]. cbn [filter]. change (rsum [x]) with (x + 0). change (rsum (x :: l)) with (x + rsum l) in Hr. unfold Rltb at 1.
  destruct (Rlt_dec (a + (x + 0)) r) as [L|L].
  - destruct (IH (a + x) r ltac:(lra)) as (b & w & c & E & Q & HH).
    exists (x :: b), w, c. split; [cbn; congruence|]. split; [cbn; f_equal; exact Q|]. change (rsum (x :: b)) with (x + rsum b). lra.
  - exists [], x, l. split; auto. split; [|cbn; lra].
    assert (F : filter (fun c => Rltb c r) (map (fun i => a + x + rsum (firstn (S i) l)) (seq 0 (length l))) = []).
    { generalize (seq 0 (length l)). intros s. induction s as [|i s IHs]; auto. cbn [map filter]. unfold Rltb at 1.
      destruct (Rlt_dec _ r) as [Q|_]; [|exact IHs]. pose proof (rsum_pos_firstn l (S i) Hl). lra. }
    rewrite F. reflexivity.
Qed.

Lemma rsum_scale k l : rsum (map (fun r => r / k) l) = rsum l / k.
Proof. induction l; cbn; [unfold Rdiv; ring|]. unfold rsum in *. rewrite IHl. unfold Rdiv. ring. Qed.

Lemma choice_picks D k rates : lawful D -> Forall (fun x => 0 < x) rates -> rates <> [] ->
  picks rates (uniform D k) (choice D k (map (fun r => r / rsum rates) rates)).
Proof.
  intros L H NE. pose proof (uniform_range _ L k) as U.
  assert (T : 0 < rsum rates). { destruct H; [congruence|]. pose proof (rsum_pos_firstn l (length l) H0). rewrite firstn_all in *. cbn. unfold rsum in *. lra. }
  set (p := map _ rates).
  assert (PP : Forall (fun x => 0 < x) p). { unfold p. rewrite Forall_map. eapply Forall_impl; [|exact H]. cbn. intros. apply Rdiv_lt_0_compat; auto. }
  assert (SP : rsum p = 1). { unfold p. rewrite rsum_scale. field. lra. }
  destruct (cumsum_picks p PP 0 (rsum p * (1 - uniform D k)) ltac:(rewrite SP; lra)) as (b & w & c & E & Q & HH).
  assert (ES : exists b' w' c', rates = b' ++ w' :: c' /\ b = map (fun r => r / rsum rates) b' /\ w = w' / rsum rates).
  { unfold p in E. apply map_eq_app in E. destruct E as (b' & r' & E1 & E2 & E3). destruct r' as [|w' c']; [discriminate|].
    cbn in E3. injection E3 as E3 E4. exists b', w', c'. auto. }
  destruct ES as (b' & w' & c' & E1 & E2 & E3). exists b', w', c'. split; auto. split.
  - unfold choice. fold p. unfold cumsum. rewrite <- (map_length (fun r => r / rsum rates) b'), <- E2, Q. f_equal. f_equal.
    apply map_ext. intros. apply Rplus_0_l.
  - rewrite SP, E2, E3, rsum_scale in HH. set (T0 := rsum rates) in *. set (B := rsum b') in *. clearbody T0 B.
    destruct HH as [H1 H2].
    assert (M1 : (0 + B / T0) * T0 < 1 * (1 - uniform D k) * T0) by (apply Rmult_lt_compat_r; lra).
    assert (M2 : 1 * (1 - uniform D k) * T0 <= (0 + B / T0 + w' / T0) * T0) by (apply Rmult_le_compat_r; lra).
    replace ((0 + B / T0) * T0) with B in M1 by (field; lra). replace ((0 + B / T0 + w' / T0) * T0) with (B + w') in M2 by (field; lra). lra.
Qed.
Lemma picks_lt l u i : picks l u i -> (i < length l)%nat.
Proof. intros (b & w & c & E & Q & _). subst. rewrite app_length. cbn. lia. Qed.

Lemma bell_pos p : 0 < bell p.
Proof. unfold bell. pose proof (exp_pos (- 5 * pdist p (mkpt (85 / 100) 0) ^ 2)). pose proof ln_lt_2. apply Rmult_lt_0_compat; [lra|auto]. Qed.
Lemma bell_prior p : prior_rate p = bell p.
Proof. apply prior_rate_bell. Qed.

Lemma uniform_in_eq D k lo hi : lawful D -> lo <= hi -> uniform_in D k lo hi = lo + uniform D k * (hi - lo).
Proof.
  intros L H. unfold uniform_in. pose proof (uniform_range _ L k). rewrite Rmax_right; [ring|].
  assert (0 <= uniform D k * (hi - lo)) by (apply Rmult_le_pos; lra). lra.
Qed.

Lemma transitions_waits u rate t : transitions u rate t = true <-> waits_less u rate t.
Proof. unfold transitions, waits_less. rewrite andb_true_iff, !Rltb_true. tauto. Qed.

(** * rows *)
Lemma sample_prior_row D N cd lo hi k : lawful D -> (0 < N)%nat -> lo <= hi ->
  prior_row N lo hi (multinormal D (Child k 6 4) (mkpt (85 / 100) 0) (mkmat2 (15 / 100) 0 0 (15 / 100)))
    (normal D (Child k 6 5) cd) (randint D (Child k 6 1) N) (uniform D (Child k 6 0)) (uniform D (Child k 6 2)) (uniform D (Child k 6 3))
    (sample_prior D N cd lo hi k).
Proof.
  intros L HN HL. unfold sample_prior.
  cbv zeta.
  assert (EC : mkmat2 (ma SIGR_PRIOR_RATE_COV * (15 / 10)) (mb SIGR_PRIOR_RATE_COV * (15 / 10)) (mc SIGR_PRIOR_RATE_COV * (15 / 10))
    (md SIGR_PRIOR_RATE_COV * (15 / 10)) = mkmat2 (15 / 100) 0 0 (15 / 100)) by (unfold SIGR_PRIOR_RATE_COV; cbn; f_equal; lra).
  rewrite EC. clear EC.
  change SIGR_PRIOR_RATE_MEAN with (mkpt (85 / 100) 0). set (beam := multinormal _ _ _ _).
  pose proof (randint_range _ L (Child k 6 1) N HN) as HK. set (turn := randint _ _ _) in *.
  rewrite (uniform_in_eq _ _ _ _ L HL). set (t := lo + _). set (u := uniform D (Child k 6 2)).
  set (rates := map (fun i => bell (rotate beam (neighbour_angle N i))) (seq 0 N)).
  assert (LR : length rates = N) by (unfold rates; rewrite map_length, seq_length; auto).
  assert (ER : map prior_rate (get_all_position_rotations beam N) = rates).
  { unfold get_all_position_rotations, rates. rewrite map_map. apply map_ext. intros i. rewrite step_neighbour, bell_prior by lia. reflexivity. }
  assert (PR : picks rates (uniform D (Child k 6 0)) (choice D (Child k 6 0) (map (fun r => r / rsum rates) rates))).
  { apply choice_picks; auto; [|intros E; rewrite E in LR; cbn in LR; lia].
    unfold rates. rewrite Forall_map. apply Forall_forall. intros. apply bell_pos. }
  set (s := choice _ _ _) in PR. pose proof (picks_lt _ _ _ PR) as HS. rewrite LR in HS.
  unfold sample_from_prior. rewrite ER. fold s. cbn [d_state d_time d_rates d_context d_position]. rewrite step_neighbour by lia.
  assert (RI : rotate_index (Z.of_nat s) (Z.of_nat turn) N = Z.of_nat ((s + turn) mod N)).
  { unfold rotate_index. rewrite <- Nat2Z.inj_add, <- Nat2Z.inj_mod. reflexivity. }
  rewrite RI.
  split; cbn [r_dt r_context r_position r_rates r_next_state]; auto.
  - rewrite roll_length. exact LR.
  - intros i j C. rewrite (roll_nth _ turn i j) by (rewrite LR; auto). unfold rates. rewrite (nth_error_map_seq (fun i => bell (rotate beam (neighbour_angle N i)))) by apply C. reflexivity.
  - fold rates. intros W. exists s, ((s + turn) mod N)%nat. split; auto. split; [apply comes_from_ex; auto|].
    apply transitions_waits in W. rewrite W. lia.
  - fold rates. intros W. destruct (transitions u (rsum rates) t) eqn:E; auto. exfalso. apply W. apply transitions_waits. exact E.
Qed.

Lemma sample_network_row {P ST} (nets : list nat -> nat -> layers P ST key) net D N pd cd lo hi init k :
  lawful D -> functional nets net -> (0 < N)%nat -> lo <= hi ->
  exists r, sample_network_rates P ST nets D N pd cd lo hi init k = Ok r /\
  network_row N cd lo hi (net [1; 64]%nat (N + 1)%nat init (cd + pd)%nat) (normal D (Child k 4 3) (cd + pd))
    (uniform D (Child k 4 0)) (uniform D (Child k 4 1)) (uniform D (Child k 4 2)) r.
Proof.
  intros L F HN HL. unfold sample_network_rates, network.
  destruct (ly_init P ST key (nets [1; 64]%nat (N + 1)%nat) init (cd + pd)) as [p0 s0] eqn:EI.
  pose proof (normal_length _ L (Child k 4 3) (cd + pd)) as LI. set (input := normal _ _ _) in *.
  destruct (F [1; 64]%nat (N + 1)%nat init (cd + pd)%nat (Child k 4 3) input LI) as [E LN]. rewrite EI in E. cbn [fst] in E.
  unfold call_mlp. rewrite E. cbn [bind fst map first_but_last].
  set (out := net _ _ _ _ _) in *.
  assert (RL : removelast (map softplus out) = map (fun x => ln (1 + exp x)) (firstn N out)).
  { rewrite removelast_firstn_len, map_length, LN. replace (Init.Nat.pred (N + 1)%nat) with N by lia. rewrite firstn_map. reflexivity. }
  rewrite RL. set (rates := map _ (firstn N out)).
  assert (PO : Forall (fun x => 0 < x) rates).
  { unfold rates. rewrite Forall_map. apply Forall_forall. intros x _. rewrite <- ln_1. apply ln_increasing; [lra|]. pose proof (exp_pos x). lra. }
  assert (LR : length rates = N) by (unfold rates; rewrite map_length, firstn_length; lia).
  pose proof (choice_picks D (Child k 4 0) rates L PO ltac:(intros E0; rewrite E0 in LR; cbn in LR; lia)) as PR.
  set (s := choice _ _ _) in *. rewrite (uniform_in_eq _ _ _ _ L HL).
  eexists. split; [reflexivity|]. split; cbn [r_dt r_context r_position r_rates r_next_state]; auto.
  - apply firstn_skipn.
  - rewrite firstn_length. lia.
  - intros W. exists s. split; auto. apply transitions_waits in W. rewrite W. lia.
  - intros W. destruct (transitions _ _ _) eqn:E0; auto. exfalso. apply W. apply transitions_waits. exact E0.
Qed.

Lemma vmap_ok {A B} (f : A -> res B) (g : A -> B -> Prop) l : (forall x, exists y, f x = Ok y /\ g x y) ->
  exists ys, vmap f l = Ok ys /\ length ys = length l /\ forall i y, nth_error ys i = Some y -> exists x, nth_error l i = Some x /\ g x y.
Proof.
  intros H. induction l as [|x l (ys & E & LE & IH)]; [exists []; repeat split; intros [|i] y; discriminate|].
  destruct (H x) as (y & Ey & G). exists (y :: ys). cbn. rewrite Ey, E. cbn. split; auto. split; [lia|].
  intros [|i] z; cbn; [intros [= <-]; eauto|apply IH].
Qed.
Lemma split_nth k n i x : nth_error (split k n) i = Some x -> x = Child k n i.
Proof.
  intros H. unfold split in H. destruct (Nat.lt_ge_cases i n) as [L|L].
  - rewrite nth_error_map_seq in H by auto. congruence.
  - assert (nth_error (map (Child k n) (seq 0 n)) i = None) by (apply nth_error_None; rewrite map_length, seq_length; auto). congruence.
Qed.

Definition the_key (seed : Z) (n m : nat) (b : bool) (i j : nat) : key :=
  Child (Child (Child (Child (Seed seed) 2 0) 2 (if b then 0 else 1)%nat) n i) m j.
Lemma the_key_separate seed n m : separate (the_key seed n m).
Proof. intros b i j b' i' j' E. unfold the_key in E. injection E as E1 E2 E3. destruct b, b'; cbn in E1; try discriminate; auto. Qed.

(** C125: the rows of the prior's data, every number of which has a key of its own *)
Theorem prior_data {P ST} (nets : list nat -> nat -> layers P ST key) n N pd cd lo hi seed clock :
  (0 < N)%nat -> lo <= hi ->
  exists keys : bool -> nat -> nat -> key, separate keys /\ forall D, lawful D ->
  exists train test, generate_synthetic_data P ST nets D n N pd cd lo hi (Some seed) clock "prior" = Returns (Ok (train, test)) /\
    length train = n /\ length test = n /\
    forall (b : bool) i r, nth_error (if b then train else test) i = Some r ->
      prior_row N lo hi (multinormal D (keys b i 4%nat) (mkpt (85 / 100) 0) (mkmat2 (15 / 100) 0 0 (15 / 100)))
        (normal D (keys b i 5%nat) cd) (randint D (keys b i 1%nat) N)
        (uniform D (keys b i 0%nat)) (uniform D (keys b i 2%nat)) (uniform D (keys b i 3%nat)) r.
Proof.
  intros HN HL. exists (the_key seed n 6). split; [apply the_key_separate|]. intros D L.
  assert (V : forall k, exists ys, vmap (fun k => Ok (sample_prior D N cd lo hi k)) (split k n) = Ok ys /\ length ys = n /\
    forall i y, nth_error ys i = Some y -> y = sample_prior D N cd lo hi (Child k n i)).
  { intros k. destruct (vmap_ok (fun k => Ok (sample_prior D N cd lo hi k)) (fun k r => r = sample_prior D N cd lo hi k) (split k n)) as (ys & E & LE & H);
      [eauto|]. exists ys. split; auto. split; [unfold split in LE; rewrite map_length, seq_length in LE; auto|].
    intros i y Hy. destruct (H i y Hy) as (x & Hx & ->). rewrite (split_nth _ _ _ _ Hx). reflexivity. }
  destruct (V (Child (Child (Seed seed) 2 0) 2 0)) as (train & E1 & L1 & H1).
  destruct (V (Child (Child (Seed seed) 2 0) 2 1)) as (test & E2 & L2 & H2).
  exists train, test. unfold generate_synthetic_data, sample_dataset. cbn [String.eqb Ascii.eqb Bool.eqb]. rewrite E1, E2. cbn [bind].
  split; auto. split; auto. split; auto. intros b i r Hr.
  destruct b; [rewrite (H1 i r Hr)|rewrite (H2 i r Hr)]; apply sample_prior_row; auto.
Qed.
Print Assumptions prior_data.

(** C125: the rows of a network's data: one network for both datasets *)
Theorem network_data {P ST} (nets : list nat -> nat -> layers P ST key) net n N pd cd lo hi seed clock :
  functional nets net -> (0 < N)%nat -> lo <= hi ->
  exists init keys, separate keys /\ (forall b i j, keys b i j <> init) /\ forall D, lawful D ->
  exists train test, generate_synthetic_data P ST nets D n N pd cd lo hi (Some seed) clock "network" = Returns (Ok (train, test)) /\
    length train = n /\ length test = n /\
    forall (b : bool) i r, nth_error (if b then train else test) i = Some r ->
      network_row N cd lo hi (net [1; 64]%nat (N + 1)%nat init (cd + pd)%nat) (normal D (keys b i 3%nat) (cd + pd))
        (uniform D (keys b i 0%nat)) (uniform D (keys b i 1%nat)) (uniform D (keys b i 2%nat)) r.
Proof.
  intros F HN HL. exists (Child (Seed seed) 2 1), (the_key seed n 4). split; [apply the_key_separate|].
  split; [intros b i j E; discriminate E|]. intros D L. set (init := Child (Seed seed) 2 1).
  assert (V : forall k, exists ys, vmap (sample_network_rates P ST nets D N pd cd lo hi init) (split k n) = Ok ys /\ length ys = n /\
    forall i y, nth_error ys i = Some y -> network_row N cd lo hi (net [1; 64]%nat (N + 1)%nat init (cd + pd)%nat)
      (normal D (Child (Child k n i) 4 3) (cd + pd)) (uniform D (Child (Child k n i) 4 0)) (uniform D (Child (Child k n i) 4 1))
      (uniform D (Child (Child k n i) 4 2)) y).
  { intros k. destruct (vmap_ok (sample_network_rates P ST nets D N pd cd lo hi init) _ (split k n)
      (fun k => sample_network_row nets net D N pd cd lo hi init k L F HN HL)) as (ys & E & LE & H).
    exists ys. split; auto. split; [unfold split in LE; rewrite map_length, seq_length in LE; auto|].
    intros i y Hy. destruct (H i y Hy) as (x & Hx & G). rewrite (split_nth _ _ _ _ Hx) in G. exact G. }
  destruct (V (Child (Child (Seed seed) 2 0) 2 0)) as (train & E1 & L1 & H1).
  destruct (V (Child (Child (Seed seed) 2 0) 2 1)) as (test & E2 & L2 & H2).
  exists train, test. unfold generate_synthetic_data, sample_dataset. cbn [String.eqb Ascii.eqb Bool.eqb]. fold init. rewrite E1, E2. cbn [bind].
  split; auto. split; auto. split; auto. intros b i r Hr.
  destruct b; [apply (H1 i r Hr)|apply (H2 i r Hr)].
Qed.
Print Assumptions network_data.

(** C125: what every row of either mode has: a label for each neighbour or none,
    a time of the range, a positive rate per neighbour, a context of the
    dimension asked for.  The position has the dimension asked for with a
    network only: the prior's has two. *)
Theorem synthetic_ranges {P ST} (nets : list nat -> nat -> layers P ST key) net D n N pd cd lo hi seed clock mode train test :
  functional nets net -> lawful D -> (0 < N)%nat -> lo <= hi ->
  generate_synthetic_data P ST nets D n N pd cd lo hi (Some seed) clock mode = Returns (Ok (train, test)) ->
  forall r, In r (train ++ test) ->
    (0 <= r_next_state r <= Z.of_nat N)%Z /\ lo <= r_dt r /\ (lo < hi -> r_dt r < hi) /\
    length (r_rates r) = N /\ Forall (fun x => 0 < x) (r_rates r) /\ length (r_context r) = cd /\
    length (r_position r) = (if String.eqb mode "prior" then 2 else pd)%nat.
Proof.
  intros F L HN HL G r Hr.
  assert (TR : forall u, 0 <= u < 1 -> lo <= lo + u * (hi - lo) /\ (lo < hi -> lo + u * (hi - lo) < hi)).
  { intros u U. split; [assert (0 <= u * (hi - lo)) by (apply Rmult_le_pos; lra); lra|]. intros Q.
    assert (u * (hi - lo) < 1 * (hi - lo)) by (apply Rmult_lt_compat_r; lra). lra. }
  assert (IN : exists b i, nth_error (if b : bool then train else test) i = Some r).
  { apply in_app_or in Hr. destruct Hr as [Hr|Hr]; apply In_nth_error in Hr; destruct Hr as [i Hi]; [exists true, i|exists false, i]; auto. }
  destruct IN as (b & i & Hi).
  destruct (String.eqb mode "prior") eqn:EP.
  - apply String.eqb_eq in EP. subst mode.
    destruct (prior_data nets n N pd cd lo hi seed clock HN HL) as (keys & _ & H). destruct (H D L) as (tr & te & G' & _ & _ & R).
    rewrite G in G'. injection G' as <- <-. specialize (R b i r Hi).
    pose proof (randint_range _ L (keys b i 1%nat) N HN) as HK.
    pose proof (TR _ (uniform_range _ L (keys b i 3%nat))) as TT. rewrite <- (prior_time _ _ _ _ _ _ _ _ _ _ R) in TT.
    split; [|split; [apply TT|split; [apply TT|split; [apply R|split; [|split]]]]].
    + set (W := waits_less (uniform D (keys b i 2%nat)) (rsum (map (fun j => bell (rotate (multinormal D (keys b i 4%nat) (mkpt (85 / 100) 0) (mkmat2 (15 / 100) 0 0 (15 / 100))) (neighbour_angle N j))) (seq 0 N))) (r_dt r)).
      assert (DW : W \/ ~ W). { unfold W, waits_less. destruct (Rlt_dec 0 (uniform D (keys b i 2%nat))); [|right; tauto]. destruct (Rlt_dec (- ln (uniform D (keys b i 2%nat)) / rsum (map (fun j => bell (rotate (multinormal D (keys b i 4%nat) (mkpt (85 / 100) 0) (mkmat2 (15 / 100) 0 0 (15 / 100))) (neighbour_angle N j))) (seq 0 N))) (r_dt r)); [left|right]; tauto. }
      destruct DW as [HW|HW].
      * destruct (prior_moves _ _ _ _ _ _ _ _ _ _ R HW) as (i' & j' & _ & (_ & C & _) & ->). lia.
      * rewrite (prior_stays _ _ _ _ _ _ _ _ _ _ R HW). lia.
    + apply Forall_forall. intros x Hx. apply In_nth_error in Hx. destruct Hx as [j Hj].
      assert (HJ : (j < N)%nat). { rewrite <- (prior_rates_length _ _ _ _ _ _ _ _ _ _ R). apply nth_error_Some. congruence. }
      destruct (comes_from_inv N (randint D (keys b i 1%nat) N) j HJ) as [i' C]. rewrite (prior_rates _ _ _ _ _ _ _ _ _ _ R i' j C) in Hj.
      injection Hj as <-. apply bell_pos.
    + rewrite (prior_context _ _ _ _ _ _ _ _ _ _ R). apply L.
    + rewrite (prior_position _ _ _ _ _ _ _ _ _ _ R). reflexivity.
  - destruct (String.eqb mode "network") eqn:EN; [|unfold generate_synthetic_data, sample_dataset in G; rewrite EP, EN in G; discriminate].
    apply String.eqb_eq in EN. subst mode.
    destruct (network_data nets net n N pd cd lo hi seed clock F HN HL) as (init & keys & _ & _ & H). destruct (H D L) as (tr & te & G' & _ & _ & R).
    rewrite G in G'. injection G' as <- <-. specialize (R b i r Hi).
    pose proof (TR _ (uniform_range _ L (keys b i 2%nat))) as TT. rewrite <- (network_time _ _ _ _ _ _ _ _ _ _ R) in TT.
    pose proof (normal_length _ L (keys b i 3%nat) (cd + pd)) as LI. set (input := normal _ _ _) in *.
    destruct (F [1; 64]%nat (N + 1)%nat init (cd + pd)%nat init input LI) as [_ LN].
    assert (LR : length (r_rates r) = N). { rewrite (network_rates _ _ _ _ _ _ _ _ _ _ R), map_length, firstn_length. lia. }
    split; [|split; [apply TT|split; [apply TT|split; [exact LR|split; [|split]]]]].
    + assert (DW : waits_less (uniform D (keys b i 1%nat)) (rsum (r_rates r)) (r_dt r) \/ ~ waits_less (uniform D (keys b i 1%nat)) (rsum (r_rates r)) (r_dt r)).
      { unfold waits_less. destruct (Rlt_dec 0 (uniform D (keys b i 1%nat))); [|right; tauto]. destruct (Rlt_dec (- ln (uniform D (keys b i 1%nat)) / rsum (r_rates r)) (r_dt r)); [left|right]; tauto. }
      destruct DW as [HW|HW].
      * destruct (network_moves _ _ _ _ _ _ _ _ _ _ R HW) as (i' & HP & ->). apply picks_lt in HP. lia.
      * rewrite (network_stays _ _ _ _ _ _ _ _ _ _ R HW). lia.
    + rewrite (network_rates _ _ _ _ _ _ _ _ _ _ R), Forall_map. apply Forall_forall. intros x _. rewrite <- ln_1. apply ln_increasing; [lra|]. pose proof (exp_pos x). lra.
    + apply R.
    + assert (Q : length (r_context r ++ r_position r) = length input) by (f_equal; apply (network_input _ _ _ _ _ _ _ _ _ _ R)). rewrite app_length, LI, (network_context _ _ _ _ _ _ _ _ _ _ R) in Q. lia.
Qed.
Print Assumptions synthetic_ranges.

(** C125: other modes end in an UnboundLocalError; these two never do *)
Theorem synthetic_modes {P ST} (nets : list nat -> nat -> layers P ST key) D n N pd cd lo hi seed clock mode :
  generate_synthetic_data P ST nets D n N pd cd lo hi seed clock mode = Unbound <-> mode <> "prior"%string /\ mode <> "network"%string.
Proof.
  unfold generate_synthetic_data, sample_dataset.
  destruct (String.eqb_spec mode "prior") as [->|NP].
  - split; [|intros [H _]; congruence]. destruct (vmap _ _); discriminate.
  - destruct (String.eqb_spec mode "network") as [->|NN]; [|split; auto].
    split; [|intros [_ H]; congruence]. destruct (vmap _ _); discriminate.
Qed.
Print Assumptions synthetic_modes.

(** C125: without a seed, all calls of the same second give the same data *)
Theorem synthetic_clock {P ST} (nets : list nat -> nat -> layers P ST key) D n N pd cd lo hi (second : Z) clock clock' mode :
  (0 <= second)%Z -> IZR second <= clock < IZR second + 1 ->
  generate_synthetic_data P ST nets D n N pd cd lo hi None clock mode =
  generate_synthetic_data P ST nets D n N pd cd lo hi (Some second) clock' mode.
Proof.
  intros H C. unfold generate_synthetic_data, trunc. replace (Ztrunc clock) with second; auto.
  rewrite Ztrunc_floor by (apply IZR_le in H; lra). symmetry. apply Zfloor_imp. rewrite plus_IZR. exact C.
Qed.
Print Assumptions synthetic_clock.

(** draws and networks that keep the promises *)
Definition ex_draws : draws :=
  mkdraws (fun _ => 1 / 2) (fun _ n => repeat 1 n) (fun _ n => (n - 1)%nat) (fun _ mean _ => mean).
Lemma ex_lawful : lawful ex_draws.
Proof. split; cbn; intros; [lra|apply repeat_length|lia]. Qed.
Definition ex_nets (hidden : list nat) (n : nat) : layers nat unit key :=
  mklayers _ _ _ (fun _ _ x _ => (x, tt)) (fun d _ _ x => if forallb (fun r => (length r =? d)%nat) x then Ok (map (fun r => repeat (rsum r) n) x) else Raise ValueError)
    (fun _ d => (d, tt)).
Lemma ex_functional : functional ex_nets (fun _ n _ _ x => repeat (rsum x) n).
Proof.
  intros hidden n init d k x H. cbn. split; [|apply repeat_length].
  rewrite H, Nat.eqb_refl. reflexivity.
Qed.

(** two rows a dataset, three neighbours; half a second at three rates of at most
    ln 2 / 3 each is too short for a move of the median waiting time *)
Example prior_data_nonvacuous : exists train test, length train = 2%nat /\ length test = 2%nat /\
  generate_synthetic_data _ _ ex_nets ex_draws 2 3 2 4 0 1 (Some 7%Z) 0 "prior" = Returns (Ok (train, test)) /\
  (exists r, nth_error train 1 = Some r /\ r_next_state r = 0%Z /\ r_dt r = 1 / 2).
Proof.
  destruct (prior_data ex_nets 2 3 2 4 0 1 7 0 ltac:(lia) ltac:(lra)) as (keys & _ & H). destruct (H _ ex_lawful) as (tr & te & E & L1 & L2 & Q).
  exists tr, te. split; auto. split; auto. split; auto.
  destruct (nth_error tr 1) as [r|] eqn:EN; [|apply nth_error_None in EN; lia].
  exists r. split; auto. specialize (Q true 1%nat r EN). split; [|rewrite (prior_time _ _ _ _ _ _ _ _ _ _ Q); cbn; lra].
  apply (prior_stays _ _ _ _ _ _ _ _ _ _ Q). intros [_ W]. rewrite (prior_time _ _ _ _ _ _ _ _ _ _ Q) in W.
  cbn [uniform ex_draws] in W. set (rs := map _ _) in W.
  assert (B : 0 < rsum rs <= ln 2).
  { unfold rs. cbn [seq map].
    assert (BB : forall p, 0 < bell p <= ln 2 / 3).
    { intros p. split; [apply bell_pos|]. unfold bell. pose proof ln_lt_2. rewrite <- (Rmult_1_r (ln 2 / 3)) at 2. apply Rmult_le_compat_l; [lra|].
      rewrite <- exp_0. destruct (Req_dec (pdist p (mkpt (85 / 100) 0)) 0) as [E0|E0]; [rewrite E0; apply Req_le; f_equal; ring|].
      apply Rlt_le, exp_increasing. assert (0 < pdist p (mkpt (85 / 100) 0) ^ 2) by (rewrite <- Rsqr_pow2; apply Rsqr_pos_lt; exact E0). lra. }
    match goal with |- 0 < rsum [bell ?a; bell ?b; bell ?c] <= _ => pose proof (BB a); pose proof (BB b); pose proof (BB c) end.
    cbn [rsum fold_right]. lra. }
  replace (- ln (1 / 2)) with (ln 2) in W by (rewrite <- ln_Rinv by lra; f_equal; lra).
  assert (M : ln 2 / rsum rs * rsum rs < (0 + 1 / 2 * (1 - 0)) * rsum rs) by (apply Rmult_lt_compat_r; lra).
  replace (ln 2 / rsum rs * rsum rs) with (ln 2) in M by (field; lra). lra.
Qed.

(** a network with three equal rates above 1, and 500 seconds: it moves, to the
    neighbour in the middle *)
Example network_data_nonvacuous : exists train test,
  generate_synthetic_data _ _ ex_nets ex_draws 2 3 5 4 0 1000 (Some 7%Z) 0 "network" = Returns (Ok (train, test)) /\
  (exists r, nth_error test 1 = Some r /\ r_next_state r = 2%Z /\ length (r_position r) = 5%nat).
Proof.
  destruct (network_data ex_nets _ 2 3 5 4 0 1000 7 0 ex_functional ltac:(lia) ltac:(lra)) as (init & keys & _ & _ & H).
  destruct (H _ ex_lawful) as (tr & te & E & L1 & L2 & Q). exists tr, te. split; auto.
  destruct (nth_error te 1) as [r|] eqn:EN; [|apply nth_error_None in EN; lia].
  exists r. split; auto. specialize (Q false 1%nat r EN).
  assert (ER : r_rates r = repeat (ln (1 + exp 9)) 3).
  { rewrite (network_rates _ _ _ _ _ _ _ _ _ _ Q). cbn. repeat f_equal; lra. }
  assert (LB : 1 < ln (1 + exp 9)).
  { pose proof (exp_increasing 1 9 ltac:(lra)). pose proof (exp_pos 1). rewrite <- (ln_exp 1) at 1. apply ln_increasing; lra. }
  set (x := ln (1 + exp 9)) in *. clearbody x.
  assert (ET : rsum (r_rates r) = 3 * x) by (rewrite ER; cbn; ring).
  split.
  - destruct (network_moves _ _ _ _ _ _ _ _ _ _ Q) as (i & (b & w & c & EP & EL & B) & EI).
    + rewrite ET, (network_time _ _ _ _ _ _ _ _ _ _ Q). cbn. split; [lra|]. replace (- ln (1 / 2)) with (ln 2) by (rewrite <- ln_Rinv by lra; f_equal; lra).
      apply Rmult_lt_reg_r with (3 * x); [lra|]. replace (ln 2 / (3 * x) * (3 * x)) with (ln 2) by (field; lra).
      assert (ln 2 < 1); [|lra]. rewrite <- (ln_exp 1). apply ln_increasing; [lra|]. pose proof (exp_ineq1 1 ltac:(lra)). lra.
    + rewrite EI. rewrite ET in B. rewrite ER in EP. cbn [uniform ex_draws] in B. subst i.
      destruct b as [|b0 [|b1 [|b2 b]]]; cbn in EP.
      * injection EP as <- <-. cbn in B. lra.
      * reflexivity.
      * injection EP as <- <- <- <-. cbn in B. lra.
      * injection EP as _ _ _ EP. destruct b; discriminate.
  - pose proof (network_input _ _ _ _ _ _ _ _ _ _ Q) as EI. pose proof (network_context _ _ _ _ _ _ _ _ _ _ Q) as EC.
    assert (E2 : length (r_context r ++ r_position r) = 9%nat) by (rewrite EI; reflexivity). rewrite app_length in E2. lia.
Qed.
