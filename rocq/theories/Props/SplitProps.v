(** C70: train/test splits *)
From Coq Require Import Reals ZArith List Bool Lia Lra Arith Permutation.
From Flocq Require Import Core.
From Verif Require Import Base.Prelude Base.Rounding Model.Geometry Model.MicroscopeUtils Model.DataUtils Spec.Splitting
  Proofs.BaseFacts.
Import ListNotations.
Open Scope R_scope.


Lemma rows_at_rows {A} (data : list A) places : Forall (fun i => (i < length data)%nat) places ->
  exists l, rows_at data places = Ok l /\ rows_of data places l.
Proof.
  intros F. unfold rows_at. induction F as [|i places Hi F (l & E & Q)]; [exists []; split; [reflexivity|constructor]|].
  cbn. destruct (nth_error data i) as [x|] eqn:Ex; [|apply nth_error_None in Ex; lia].
  destruct (take_idx data places) as [l'|]; [|discriminate]. injection E as ->.
  eexists. split; [reflexivity|]. constructor; auto.
Qed.
Lemma rows_of_length {A} (data : list A) places l : rows_of data places l -> length l = length places.
Proof. induction 1; cbn; congruence. Qed.
Lemma rows_of_fun {A} (data : list A) places l l' : rows_of data places l -> rows_of data places l' -> l = l'.
Proof.
  intros H. revert l'. induction H as [|i x places l E H IH]; intros l' H'; inversion H'; subst; auto.
  f_equal; [congruence|auto].
Qed.
Lemma rows_of_app {A} (data : list A) p1 p2 l1 l2 : rows_of data p1 l1 -> rows_of data p2 l2 -> rows_of data (p1 ++ p2) (l1 ++ l2).
Proof. apply Forall2_app. Qed.
Lemma rows_of_perm {A} (data : list A) p1 p2 l1 l2 : Permutation p1 p2 -> rows_of data p1 l1 -> rows_of data p2 l2 -> Permutation l1 l2.
Proof.
  intros P. revert l1 l2. induction P; intros l1 l2 H1 H2.
  - inversion H1; inversion H2; constructor.
  - inversion H1; subst. inversion H2; subst. replace y0 with y by congruence. constructor. auto.
  - inversion H1 as [|? ? ? ? ? H1']; subst. inversion H1'; subst. inversion H2 as [|? ? ? ? ? H2']; subst. inversion H2'; subst.
    replace y2 with y1 by congruence. replace y3 with y0 by congruence.
    replace l'1 with l'0 by (eapply rows_of_fun; eauto). constructor.
  - assert (exists l, rows_of data l' l) as (l3 & H3).
    { clear - P1 H1. assert (Forall (fun i => exists x, nth_error data i = Some x) l') as F.
      { apply Forall_forall. intros i Hi. apply (Permutation_in _ (Permutation_sym P1)) in Hi.
        clear - H1 Hi. induction H1; [destruct Hi|]. destruct Hi as [->|Hi]; eauto. }
      clear - F. induction F as [|i l' (x & E) F (l & H)]; [exists []; constructor|]. exists (x :: l). constructor; auto. }
    transitivity l3; eauto.
Qed.
Lemma rows_of_all {A} (data : list A) : rows_of data (seq 0 (length data)) data.
Proof.
  assert (G : forall (pre l : list A), rows_of (pre ++ l) (seq (length pre) (length l)) l).
  { intros pre l. revert pre. induction l as [|x l IH]; intros pre; cbn; constructor.
    - rewrite nth_error_app2, Nat.sub_diag by lia. reflexivity.
    - specialize (IH (pre ++ [x])). rewrite <- app_assoc, app_length in IH. cbn in IH. rewrite Nat.add_1_r in IH. exact IH. }
  exact (G [] data).
Qed.

(** C70: whatever the fraction, the two parts of a split are the data: each row is in
    exactly one of them, as often as it is in the data *)
Theorem split_partition {A} indices fraction (data : list A) : Permutation indices (seq 0 (length data)) ->
  exists train test train_places test_places,
    split_dataset indices fraction data = Ok (train, test) /\
    indices = test_places ++ train_places /\
    rows_of data train_places train /\ rows_of data test_places test /\
    (forall i, In i train_places -> In i test_places -> False) /\
    Permutation (train ++ test) data.
Proof.
  intros P. unfold split_dataset. set (k := slice_at indices _).
  assert (F : Forall (fun i => (i < length data)%nat) indices).
  { apply Forall_forall. intros i Hi. apply (Permutation_in _ P), in_seq in Hi. lia. }
  rewrite <- (firstn_skipn k indices) in F at 1. apply Forall_app in F. destruct F as [F1 F2].
  destruct (rows_at_rows _ _ F1) as (test & E1 & R1), (rows_at_rows _ _ F2) as (train & E2 & R2).
  exists train, test, (skipn k indices), (firstn k indices). rewrite E2, E1. cbn [bind].
  split; auto. split; [symmetry; apply firstn_skipn|]. split; auto. split; auto. split.
  - intros i H1 H2. assert (N : NoDup indices) by (apply (Permutation_NoDup (Permutation_sym P)), seq_NoDup).
    rewrite <- (firstn_skipn k indices) in N. clear - N H1 H2. induction (firstn k indices) as [|x l IH]; [auto|].
    cbn in N. inversion N; subst. destruct H2 as [->|H2]; [apply H3, in_or_app; auto|auto].
  - apply (rows_of_perm data (skipn k indices ++ firstn k indices) (seq 0 (length data))).
    + rewrite Permutation_app_comm, firstn_skipn. auto.
    + apply rows_of_app; auto.
    + apply rows_of_all.
Qed.
Print Assumptions split_partition.

(** an integer is a float up to 2^53 *)
Lemma f64_IZR n : (Z.abs n <= 2 ^ 53)%Z -> f64 (IZR n) = IZR n.
Proof.
  intros H. apply round_generic; [apply valid_rnd_N|].
  destruct (Z.eq_dec (Z.abs n) (2 ^ 53)) as [E|E].
  - assert (G : generic_format radix2 (FLT_exp (-1074) 53) (bpow radix2 53)) by (apply generic_format_bpow; cbn; lia).
    assert (B : IZR (2 ^ 53) = bpow radix2 53) by reflexivity.
    destruct (Z.abs_spec n) as [[_ A]|[_ A]].
    + replace n with (2 ^ 53)%Z by lia. rewrite B. auto.
    + replace n with (- (2 ^ 53))%Z by lia. rewrite opp_IZR, B. apply generic_format_opp. auto.
  - apply generic_format_FLT. exists (Float radix2 n 0).
    + unfold F2R. cbn. ring.
    + cbn [Fnum]. change (Z.abs n < 2 ^ 53)%Z. lia.
    + cbn. lia.
Qed.
Lemma f64_le x y : x <= y -> f64 x <= f64 y.
Proof. apply round_le; [apply FLT_exp_valid; reflexivity|apply valid_rnd_N]. Qed.

(** C70: a split has the size asked for: the fraction of the data, rounded to one of the
    neighbouring integers, and exactly if it is an integer *)
Theorem split_size {A} indices fraction (data : list A) train test :
  Permutation indices (seq 0 (length data)) -> 0 <= fraction <= 1 -> (Z.of_nat (length data) <= 2 ^ 53)%Z ->
  split_dataset indices fraction data = Ok (train, test) ->
  (Zfloor (INR (length data) * fraction) <= Z.of_nat (length test) <= Zceil (INR (length data) * fraction))%Z /\
  (length train + length test = length data)%nat.
Proof.
  intros P Hf Hn E. destruct (split_partition indices fraction data P) as (tr & te & trp & tep & E' & EI & R1 & R2 & _ & PP).
  rewrite E in E'. injection E' as <- <-.
  assert (L : length indices = length data) by (rewrite (Permutation_length P), seq_length; auto).
  split; [|apply Permutation_length in PP; rewrite app_length in PP; lia].
  unfold split_dataset in E. set (n := length data) in *. set (x := INR n * fraction) in *.
  assert (Nx : 0 <= INR n) by apply pos_INR.
  assert (Hx : 0 <= x <= INR n) by (unfold x; nra). rewrite INR_IZR_INZ in Hx.
  pose proof (Zfloor_lb x). pose proof (Zfloor_ub x). pose proof (Zceil_ub x) as CU. 
  assert (F0 : (0 <= Zfloor x)%Z) by (apply Zfloor_lub; apply Hx).
  assert (FN : (Zceil x <= Z.of_nat n)%Z) by (apply Zceil_glb; apply Hx).
  assert (FC : (Zfloor x <= Zceil x)%Z) by (apply le_IZR; lra).
  assert (B1 : IZR (Zfloor x) <= f64 x) by (rewrite <- f64_IZR by lia; apply f64_le; auto).
  assert (B2 : f64 x <= IZR (Zceil x)) by (rewrite <- (f64_IZR (Zceil x)) by lia; apply f64_le; auto).
  assert (F0' : 0 <= IZR (Zfloor x)) by (apply IZR_le; auto).
  assert (K : (Zfloor x <= trunc (f64 x) <= Zceil x)%Z).
  { unfold trunc. rewrite Ztrunc_floor by lra. split; [apply Zfloor_lub; auto|].
    apply le_IZR. pose proof (Zfloor_lb (f64 x)). lra. }
  assert (LT : length test = Z.to_nat (trunc (f64 x))).
  { apply rows_of_length in R2. rewrite R2. unfold slice_at in E. destruct (trunc (f64 x) <? 0)%Z eqn:T; [apply Z.ltb_lt in T; lia|].
    destruct (rows_at data (skipn _ indices)) as [a| |]; cbn in E; try discriminate.
    unfold rows_at in E. destruct (take_idx data (firstn (Z.to_nat (trunc (f64 x))) indices)) as [b|] eqn:Eb; cbn in E; try discriminate.
    injection E as _ ->. apply take_idx_length in Eb. rewrite firstn_length, L in Eb. rewrite <- R2, Eb.
    apply Nat.min_l. apply Nat2Z.inj_le. lia. }
  lia.
Qed.
Print Assumptions split_size.

(** C70: the parts of a bootstrap: as many rows as the data has to train on, and exactly
    the others to test on *)
Theorem bootstrap_parts {A} indices set_order (data : list A) train test :
  (forall l, Permutation (set_order l) l) ->
  length indices = length data -> Forall (fun i => (i < length data)%nat) indices ->
  bootstrap_dataset indices set_order data = Ok (train, test) ->
  rows_of data indices train /\ length train = length data /\
  exists test_places, rows_of data test_places test /\ NoDup test_places /\
    (forall i, In i test_places <-> (i < length data)%nat /\ ~ In i indices).
Proof.
  intros SO L F E. destruct (rows_at_rows _ _ F) as (tr & Et & Rt). unfold bootstrap_dataset in E. rewrite Et in E. cbn [bind] in E.
  set (out := filter _ _) in E.
  assert (HO : forall i, In i (set_order out) <-> (i < length data)%nat /\ ~ In i indices).
  { intros i. assert (Q : In i (set_order out) <-> In i out) by (split; apply Permutation_in; [|symmetry]; apply SO).
    rewrite Q. unfold out. rewrite filter_In, in_seq. destruct (existsb (Nat.eqb i) indices) eqn:Ex; cbn.
    - apply existsb_exists in Ex. destruct Ex as (j & Hj & Ej). apply Nat.eqb_eq in Ej. subst j. split; [intros []; discriminate|tauto].
    - assert (~ In i indices); [|intuition lia]. intros Hi.
      assert (existsb (Nat.eqb i) indices = true) by (apply existsb_exists; exists i; split; auto; apply Nat.eqb_refl). congruence. }
  assert (ND : NoDup (set_order out)).
  { apply (Permutation_NoDup (Permutation_sym (SO out))), NoDup_filter, seq_NoDup. }
  assert (FO : Forall (fun i => (i < length data)%nat) (set_order out)) by (apply Forall_forall; intros i Hi; apply HO; auto).
  destruct (rows_at_rows _ _ FO) as (te & Ete & Rte).
  destruct (set_order out) as [|t0 ts] eqn:ES; [discriminate|]. rewrite Ete in E. cbn in E. injection E as <- <-.
  split; auto. split; [rewrite (rows_of_length _ _ _ Rt); auto|]. exists (t0 :: ts). auto.
Qed.
Print Assumptions bootstrap_parts.

(** C70: it raises exactly if every row was drawn, so always for a single row *)
Theorem bootstrap_raises {A} indices set_order (data : list A) :
  (forall l, Permutation (set_order l) l) ->
  length indices = length data -> Forall (fun i => (i < length data)%nat) indices ->
  ((forall i, (i < length data)%nat -> In i indices) -> bootstrap_dataset indices set_order data = Raise IndexError) /\
  ((exists i, (i < length data)%nat /\ ~ In i indices) -> exists parts, bootstrap_dataset indices set_order data = Ok parts).
Proof.
  intros SO L F. destruct (rows_at_rows _ _ F) as (tr & Et & Rt). unfold bootstrap_dataset. rewrite Et. cbn [bind].
  set (out := filter _ _).
  assert (HO : forall i, In i (set_order out) -> (i < length data)%nat /\ existsb (Nat.eqb i) indices = false).
  { intros i Hi. apply (Permutation_in _ (SO out)) in Hi. unfold out in Hi. apply filter_In in Hi. rewrite in_seq in Hi.
    destruct Hi as [Hi Hb]. split; [lia|]. destruct (existsb _ _); auto. }
  split.
  - intros All. destruct (set_order out) as [|i l] eqn:ES; [reflexivity|exfalso].
    destruct (HO i (or_introl eq_refl)) as [Hi Hb].
    assert (existsb (Nat.eqb i) indices = true) by (apply existsb_exists; exists i; split; auto; apply Nat.eqb_refl). congruence.
  - intros (i & Hi & Ni).
    assert (FO : Forall (fun i => (i < length data)%nat) (set_order out)) by (apply Forall_forall; intros j Hj; apply HO; auto).
    destruct (rows_at_rows _ _ FO) as (te & Ete & Rte).
    destruct (set_order out) as [|t0 ts] eqn:ES.
    + exfalso. assert (In i (set_order out)); [|rewrite ES in H; destruct H].
      apply (Permutation_in _ (Permutation_sym (SO out))). unfold out. apply filter_In. rewrite in_seq. split; [lia|].
      destruct (existsb _ _) eqn:Ex; auto. apply existsb_exists in Ex. destruct Ex as (j & Hj & Ej). apply Nat.eqb_eq in Ej. congruence.
    + rewrite Ete. eexists. reflexivity.
Qed.
Theorem bootstrap_single_refuted {A} (x : A) indices set_order : (forall l, Permutation (set_order l) l) ->
  length indices = 1%nat -> Forall (fun i => (i < 1)%nat) indices -> bootstrap_dataset indices set_order [x] = Raise IndexError.
Proof.
  intros SO L F. apply (bootstrap_raises indices set_order [x]); auto. cbn. intros i Hi.
  destruct indices as [|j [|? ?]]; cbn in L; try discriminate. inversion F; subst. left. lia.
Qed.
Print Assumptions bootstrap_raises.
Print Assumptions bootstrap_single_refuted.

Example split_nonvacuous :
  split_dataset [2; 0; 1; 3]%nat (1 / 2) [5; 6; 7; 8]%Z = Ok ([6; 8], [7; 5])%Z /\
  bootstrap_dataset [2; 0; 2; 3]%nat (@rev nat) [5; 6; 7; 8]%Z = Ok ([7; 5; 7; 8], [6])%Z.
Proof.
  split; [|reflexivity]. unfold split_dataset. cbn [length]. replace (INR 4 * (1 / 2)) with (IZR 2) by (cbn; lra).
  rewrite f64_IZR by (cbn; lia). unfold trunc. rewrite Ztrunc_IZR. reflexivity.
Qed.
