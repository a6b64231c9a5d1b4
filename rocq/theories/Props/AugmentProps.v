(** C69: symmetric copies of transitions *)
From Coq Require Import Reals ZArith List Bool Lia Lra Arith Permutation.
From Verif Require Import Base.Prelude Model.Geometry Model.MicroscopeUtils Model.DataUtils Spec.Augmenting
  Model.Constants Base.Matrix Model.Graphene Proofs.BaseFacts Proofs.GeometryFacts Proofs.GaussianFacts.
Import ListNotations.
Open Scope R_scope.

(** * the model against the vocabulary *)
Lemma nth_map_seq {A} (f : nat -> A) n k d : (k < n)%nat -> nth k (map f (seq 0 n)) d = f k.
Proof.
  intros H. rewrite (nth_indep _ d (f 0%nat)) by (rewrite map_length, seq_length; auto).
  rewrite map_nth, seq_nth by auto. reflexivity.
Qed.
Lemma nth_error_map_seq {A} (f : nat -> A) n k : (k < n)%nat -> nth_error (map f (seq 0 n)) k = Some (f k).
Proof. intros H. rewrite (nth_error_nth' _ (f 0%nat)) by (rewrite map_length, seq_length; auto). rewrite nth_map_seq; auto. Qed.

Lemma step_neighbour N k : (N <> 0)%nat -> step_angle N (Z.of_nat k) = neighbour_angle N k.
Proof.
  intros H. unfold step_angle, neighbour_angle. rewrite <- INR_IZR_INZ. field. apply not_0_INR. auto.
Qed.

Lemma roll_nth {A} (l : list A) k i j d : comes_from (length l) k i j ->
  nth_error (rotate_attributes l (Z.of_nat k) d) j = nth_error l i.
Proof.
  intros (Hi & Hj & E). unfold rotate_attributes. rewrite nth_error_map_seq by auto.
  rewrite (nth_error_nth' l d Hi). f_equal. f_equal.
  assert (Q : ((Z.of_nat j - Z.of_nat k) mod Z.of_nat (length l) = Z.of_nat i)%Z); [|rewrite Q; apply Nat2Z.id].
  rewrite <- E. rewrite Nat2Z.inj_mod, Nat2Z.inj_add.
  rewrite Zminus_mod_idemp_l. replace (Z.of_nat i + Z.of_nat k - Z.of_nat k)%Z with (Z.of_nat i) by lia.
  apply Z.mod_small. lia.
Qed.
Lemma comes_from_ex N k i : (i < N)%nat -> comes_from N k i ((i + k) mod N).
Proof. intros H. split; auto. split; auto. apply Nat.mod_upper_bound. lia. Qed.
Lemma comes_from_inv N k j : (j < N)%nat -> exists i, comes_from N k i j.
Proof.
  intros H. exists (((j + N) - (k mod N)) mod N)%nat. assert (Hk : (k mod N < N)%nat) by (apply Nat.mod_upper_bound; lia).
  split; [apply Nat.mod_upper_bound; lia|]. split; auto.
  rewrite Nat.add_mod_idemp_l by lia. rewrite <- Nat.add_mod_idemp_r by lia.
  replace (j + N - k mod N + k mod N)%nat with (j + 1 * N)%nat by lia. rewrite Nat.mod_add by lia. apply Nat.mod_small. auto.
Qed.
Lemma comes_from_fun N k i i' j : comes_from N k i j -> comes_from N k i' j -> i = i'.
Proof.
  intros (H & _ & E) (H' & _ & E'). assert (N <> 0)%nat by lia.
  assert (Q : ((i + k) mod N = (i' + k) mod N)%nat) by congruence.
  apply Nat2Z.inj_iff in Q. rewrite !Nat2Z.inj_mod, !Nat2Z.inj_add in Q.
  assert (Q' : ((Z.of_nat i + Z.of_nat k - Z.of_nat k) mod Z.of_nat N = (Z.of_nat i' + Z.of_nat k - Z.of_nat k) mod Z.of_nat N)%Z).
  { rewrite <- (Zminus_mod_idemp_l (Z.of_nat i + _)), Q, Zminus_mod_idemp_l. reflexivity. }
  rewrite !Z.add_simpl_r, !Z.mod_small in Q' by lia. lia.
Qed.
Lemma comes_from_compose N k m i j l : comes_from N k i j -> comes_from N m j l -> comes_from N ((k + m) mod N) i l.
Proof.
  intros (Hi & Hj & E) (_ & Hl & E'). split; auto. split; auto. rewrite <- E', <- E.
  rewrite Nat.add_mod_idemp_r by lia. rewrite Nat.add_mod_idemp_l by lia. f_equal. lia.
Qed.

Lemma roll_length {A} (l : list A) k d : length (rotate_attributes l k d) = length l.
Proof. unfold rotate_attributes. rewrite map_length, seq_length. reflexivity. Qed.

(** C69: the k-th rotation of a row turns its beam position, its rates and its
    label by k neighbours *)
Lemma rotate_datapoint_turned N k d : (k < N)%nat -> proper N d -> turned_by N k d (rotate_datapoint N d k).
Proof.
  intros Hk [Hs Hl]. unfold rotate_datapoint, get_all_state_rotations, get_all_rate_rotations, get_all_position_rotations.
  rewrite !nth_map_seq by auto. constructor; cbn [d_state d_time d_rates d_position d_context]; auto.
  - intros ->. cbn. lia.
  - intros i E Hi. rewrite E. replace (Z.sgn (Z.of_nat (S i))) with 1%Z by lia.
    exists ((i + k) mod N)%nat. split; [apply comes_from_ex; auto|].
    unfold rotate_index. replace (Z.of_nat (S i) - 1)%Z with (Z.of_nat i) by lia.
    rewrite <- Nat2Z.inj_add, <- Nat2Z.inj_mod. lia.
  - apply roll_length.
  - intros i j C. apply roll_nth. rewrite Hl. auto.
  - rewrite step_neighbour by lia. reflexivity.
Qed.

(** * turns and mirrors *)
Lemma rotate_turns p t q : rotate p (t + 2 * PI * INR q) = rotate p t.
Proof.
  induction q as [|q IH]; [cbn; f_equal; lra|]. rewrite S_INR.
  replace (t + 2 * PI * (INR q + 1)) with (t + 2 * PI * INR q + 2 * PI) by ring. rewrite rotate_period. auto.
Qed.
Lemma neighbour_angle_mod N k p : (N <> 0)%nat -> rotate p (neighbour_angle N k) = rotate p (neighbour_angle N (k mod N)).
Proof.
  intros H. rewrite (Nat.div_mod k N H) at 1. unfold neighbour_angle.
  rewrite <- (rotate_turns p (2 * PI * (INR (k mod N) / INR N)) (k / N)). f_equal.
  rewrite plus_INR, mult_INR. field. apply not_0_INR. auto.
Qed.
Lemma neighbour_angle_add N k m : (N <> 0)%nat -> neighbour_angle N k + neighbour_angle N m = neighbour_angle N (k + m).
Proof. intros H. unfold neighbour_angle. rewrite plus_INR. field. apply not_0_INR. auto. Qed.

Lemma datapoint_eq d d' : d_state d = d_state d' -> d_time d = d_time d' -> d_rates d = d_rates d' ->
  d_position d = d_position d' -> d_context d = d_context d' -> d = d'.
Proof. destruct d, d'. cbn. intros; subst; reflexivity. Qed.

Lemma nth_error_eq {A} (l l' : list A) : length l = length l' ->
  (forall i, (i < length l)%nat -> nth_error l i = nth_error l' i) -> l = l'.
Proof.
  revert l'; induction l as [|x l IH]; intros [|x' l'] L H; try discriminate; auto.
  f_equal; [specialize (H 0%nat ltac:(cbn; lia)); cbn in H; congruence|].
  apply IH; [cbn in L; lia|]. intros i Hi. apply (H (S i)). cbn. lia.
Qed.

(** a turn says everything about its result *)
Lemma proper_state N d : proper N d -> d_state d = 0%Z \/ exists i, d_state d = Z.of_nat (S i) /\ (i < N)%nat.
Proof.
  intros [H _]. destruct (Z.eq_dec (d_state d) 0) as [E|E]; [left; auto|right]. exists (Z.to_nat (d_state d - 1)). split; lia.
Qed.
Theorem turned_by_unique N k d d1 d2 : proper N d -> turned_by N k d d1 -> turned_by N k d d2 -> d1 = d2.
Proof.
  intros P T1 T2. apply datapoint_eq.
  - destruct (proper_state _ _ P) as [E|(i & E & Hi)].
    + rewrite (turned_none _ _ _ _ T1 E), (turned_none _ _ _ _ T2 E). auto.
    + destruct (turned_state _ _ _ _ T1 i E Hi) as (j & (_ & _ & C) & ->), (turned_state _ _ _ _ T2 i E Hi) as (j' & (_ & _ & C') & ->). congruence.
  - rewrite (turned_time _ _ _ _ T1), (turned_time _ _ _ _ T2). auto.
  - pose proof (turned_length _ _ _ _ T1) as L1. pose proof (turned_length _ _ _ _ T2) as L2. destruct P as [_ P].
    apply nth_error_eq; [congruence|]. intros j Hj. rewrite L1, P in Hj.
    destruct (comes_from_inv N k j Hj) as (i & C). rewrite (turned_rates _ _ _ _ T1 _ _ C), (turned_rates _ _ _ _ T2 _ _ C). auto.
  - rewrite (turned_position _ _ _ _ T1), (turned_position _ _ _ _ T2). auto.
  - rewrite (turned_context _ _ _ _ T1), (turned_context _ _ _ _ T2). auto.
Qed.

(** C69: what a symmetric copy keeps: its label is proper, "no move" stays "no
    move" and the move made has the same rate *)
Theorem turned_keeps N k d d' : proper N d -> turned_by N k d d' ->
  proper N d' /\ (d_state d' = 0%Z <-> d_state d = 0%Z) /\ rate_of_move d' = rate_of_move d /\
  d_time d' = d_time d /\ d_context d' = d_context d.
Proof.
  intros P T. pose proof (turned_length _ _ _ _ T) as L. destruct (proper_state _ _ P) as [E|(i & E & Hi)].
  - pose proof (turned_none _ _ _ _ T E) as E'. split; [split; [lia|destruct P; congruence]|]. split; [tauto|].
    split; [|split; [apply (turned_time _ _ _ _ T)|apply (turned_context _ _ _ _ T)]].
    unfold rate_of_move. rewrite E, E'. reflexivity.
  - destruct (turned_state _ _ _ _ T i E Hi) as (j & C & E').
    assert (Hj : (j < N)%nat) by apply C.
    split; [split; [lia|destruct P; congruence]|]. split; [lia|].
    split; [|split; [apply (turned_time _ _ _ _ T)|apply (turned_context _ _ _ _ T)]].
    unfold rate_of_move. rewrite E, E'. destruct (Z.eq_dec (Z.of_nat (S j)) 0); [lia|]. destruct (Z.eq_dec (Z.of_nat (S i)) 0); [lia|].
    replace (Z.to_nat (Z.of_nat (S j) - 1)) with j by lia. replace (Z.to_nat (Z.of_nat (S i) - 1)) with i by lia.
    apply (turned_rates _ _ _ _ T). auto.
Qed.

(** C69: turns compose modulo the number of neighbours; turning by none is the identity *)
Theorem turned_compose N k m d d' d'' : proper N d -> turned_by N k d d' -> turned_by N m d' d'' ->
  turned_by N ((k + m) mod N) d d''.
Proof.
  intros P T T'. destruct (Nat.eq_dec N 0) as [->|HN].
  { destruct P as [Hs Hl]. pose proof (turned_length _ _ _ _ T) as L. pose proof (turned_length _ _ _ _ T') as L'.
    constructor.
    - intros E. apply (turned_none _ _ _ _ T'), (turned_none _ _ _ _ T), E.
    - intros; lia.
    - congruence.
    - intros i j (C & _). lia.
    - rewrite (turned_position _ _ _ _ T'), (turned_position _ _ _ _ T), rotate_compose.
      unfold neighbour_angle. cbn. unfold Rdiv. rewrite Rinv_0. f_equal. ring.
    - rewrite (turned_time _ _ _ _ T'). apply (turned_time _ _ _ _ T).
    - rewrite (turned_context _ _ _ _ T'). apply (turned_context _ _ _ _ T). }
  constructor.
  - intros E. apply (turned_none _ _ _ _ T'), (turned_none _ _ _ _ T), E.
  - intros i E Hi. destruct (turned_state _ _ _ _ T i E Hi) as (j & C & E').
    destruct (turned_state _ _ _ _ T' j E') as (l & C' & E''); [apply C|]. exists l. split; auto. eapply comes_from_compose; eauto.
  - rewrite (turned_length _ _ _ _ T'). apply (turned_length _ _ _ _ T).
  - intros i l C. assert (Hi : (i < N)%nat) by apply C.
    pose proof (comes_from_ex N k i Hi) as C1. set (j := ((i + k) mod N)%nat) in *.
    assert (Hj : (j < N)%nat) by apply C1. pose proof (comes_from_ex N m j Hj) as C2.
    assert ((j + m) mod N = l)%nat.
    { destruct C as (_ & _ & <-). destruct (comes_from_compose _ _ _ _ _ _ C1 C2) as (_ & _ & Q). congruence. }
    rewrite H in C2. rewrite (turned_rates _ _ _ _ T' _ _ C2). apply (turned_rates _ _ _ _ T). auto.
  - rewrite (turned_position _ _ _ _ T'), (turned_position _ _ _ _ T), rotate_compose, neighbour_angle_add by auto.
    apply neighbour_angle_mod. auto.
  - rewrite (turned_time _ _ _ _ T'). apply (turned_time _ _ _ _ T).
  - rewrite (turned_context _ _ _ _ T'). apply (turned_context _ _ _ _ T).
Qed.
Theorem turned_zero N d : proper N d -> turned_by N 0 d d.
Proof.
  intros P. constructor; auto.
  - intros i E Hi. exists i. split; auto. split; auto. split; auto. rewrite Nat.add_0_r. apply Nat.mod_small. auto.
  - intros i j (Hi & _ & E). rewrite Nat.add_0_r, Nat.mod_small in E by auto. congruence.
  - unfold neighbour_angle. cbn. unfold Rdiv. rewrite Rmult_0_l, Rmult_0_r. symmetry. apply rotate_0.
Qed.

Theorem mirror_unique d d1 d2 : mirror_of d d1 -> mirror_of d d2 -> d1 = d2.
Proof.
  intros M1 M2. apply datapoint_eq.
  - destruct (mirror_state _ _ M1) as [E|[E|[E|E]]], (mirror_state _ _ M2) as [E'|[E'|[E'|E']]];
      injection E as E1 E2; injection E' as E1' E2'; congruence.
  - rewrite (mirror_time _ _ M1), (mirror_time _ _ M2). auto.
  - destruct (mirror_rates _ _ M1) as (a & b & c & E & ->), (mirror_rates _ _ M2) as (a' & b' & c' & E' & ->). congruence.
  - destruct (mirror_position _ _ M1), (mirror_position _ _ M2). apply pt_eq; congruence.
  - rewrite (mirror_context _ _ M1), (mirror_context _ _ M2). auto.
Qed.
(** C69: mirroring twice changes nothing *)
Theorem mirror_involution d d' : mirror_of d d' -> mirror_of d' d.
Proof.
  intros M. constructor.
  - destruct (mirror_state _ _ M) as [E|[E|[E|E]]]; injection E as -> ->; auto.
  - destruct (mirror_rates _ _ M) as (a & b & c & -> & ->). exists a, c, b. auto.
  - destruct (mirror_position _ _ M) as [-> ->]. split; lra.
  - symmetry. apply (mirror_time _ _ M).
  - symmetry. apply (mirror_context _ _ M).
Qed.
Theorem mirror_keeps d d' : mirror_of d d' ->
  proper 3 d' /\ (d_state d' = 0%Z <-> d_state d = 0%Z) /\ rate_of_move d' = rate_of_move d /\
  d_time d' = d_time d /\ d_context d' = d_context d.
Proof.
  intros M. destruct (mirror_rates _ _ M) as (a & b & c & E1 & E2).
  split; [split; [|rewrite E2; reflexivity]; destruct (mirror_state _ _ M) as [E|[E|[E|E]]]; injection E as _ ->; lia|].
  split; [destruct (mirror_state _ _ M) as [E|[E|[E|E]]]; injection E as -> ->; lia|].
  split; [|split; [apply (mirror_time _ _ M)|apply (mirror_context _ _ M)]].
  unfold rate_of_move. rewrite E1, E2. destruct (mirror_state _ _ M) as [E|[E|[E|E]]]; injection E as -> ->; reflexivity.
Qed.

(** C69: the rates of a symmetric copy are right for its beam position, whatever
    rate field described the original *)
Theorem turned_described N f k d d' : (k < N)%nat -> proper N d -> turned_by N k d d' -> described_by N f d -> described_by N f d'.
Proof.
  intros Hk P T [L D]. split; [rewrite (turned_length _ _ _ _ T); auto|]. intros j Hj.
  destruct (comes_from_inv N k j Hj) as (i & C). rewrite (turned_rates _ _ _ _ T _ _ C), D by apply C.
  rewrite (turned_position _ _ _ _ T), rotate_compose. do 2 f_equal.
  destruct C as (Hi & _ & E). set (p := d_position d).
  assert (Q : forall t, rotate p (neighbour_angle N k + - neighbour_angle N j) = rotate p t -> rotate p t = rotate p (neighbour_angle N k + - neighbour_angle N j)) by auto.
  apply Q. clear Q.
  assert (Ei : (i + k = j \/ i + k = j + N)%nat).
  { destruct (Nat.lt_ge_cases (i + k) N) as [H|H]; [left; rewrite Nat.mod_small in E; auto|right].
    rewrite <- (Nat.sub_add N (i + k)) in E by auto. rewrite <- (Nat.mul_1_l N) in E at 2. rewrite Nat.mod_add in E by lia.
    rewrite Nat.mod_small in E by lia. lia. }
  assert (NR : INR N <> 0) by (apply not_0_INR; lia).
  destruct Ei as [Ei|Ei]; apply (f_equal INR) in Ei; rewrite !plus_INR in Ei.
  - f_equal. unfold neighbour_angle. rewrite <- Ei. field. auto.
  - rewrite <- (rotate_turns p (- neighbour_angle N i) 1). f_equal. unfold neighbour_angle.
    replace (INR j) with (INR i + INR k - INR N) by lra. cbn [INR]. field. auto.
Qed.
Theorem mirror_described f d d' : mirror_symmetric f -> mirror_of d d' -> described_by 3 f d -> described_by 3 f d'.
Proof.
  intros Sf M [L D]. destruct (mirror_rates _ _ M) as (a & b & c & E1 & E2). split; [rewrite E2; reflexivity|].
  destruct (mirror_position _ _ M) as [Ex Ey].
  assert (Ep : d_position d' = mkpt (px (d_position d)) (- py (d_position d))) by (apply pt_eq; auto).
  assert (R : forall t, f (rotate (d_position d') t) = f (rotate (d_position d) (- t))).
  { intros t. rewrite <- Sf. f_equal. rewrite Ep. unfold rotate. cbn. rewrite cos_neg, sin_neg. f_equal; ring. }
  pose proof (D 0%nat ltac:(lia)) as D0. pose proof (D 1%nat ltac:(lia)) as D1. pose proof (D 2%nat ltac:(lia)) as D2.
  rewrite E1 in D0, D1, D2. cbn in D0, D1, D2.
  assert (T : forall i j, (i + j = 3)%nat -> f (rotate (d_position d) (- neighbour_angle 3 i)) = f (rotate (d_position d) (neighbour_angle 3 j))).
  { intros i j H. apply (f_equal INR) in H. rewrite plus_INR in H. f_equal.
    rewrite <- (rotate_turns _ (- neighbour_angle 3 i) 1). f_equal. unfold neighbour_angle. cbn [INR] in *.
    replace (INR j) with (3 - INR i) by lra. field. }
  intros i Hi. rewrite R, Ropp_involutive, E2. destruct i as [|[|[|i]]]; [| | |lia]; cbn [nth_error].
  - rewrite D0. do 3 f_equal. unfold neighbour_angle. cbn. lra.
  - rewrite D2. f_equal. apply (T 2%nat 1%nat). reflexivity.
  - rewrite D1. f_equal. apply (T 1%nat 2%nat). reflexivity.
Qed.

(** C69: mirroring after a turn is turning the other way after mirroring *)
Theorem mirror_turn k d dk m dkm : (k < 3)%nat -> proper 3 d -> turned_by 3 k d dk -> mirror_of dk dkm -> mirror_of d m ->
  turned_by 3 ((3 - k) mod 3) m dkm.
Proof.
  intros Hk P T Mk M.
  destruct (mirror_rates _ _ M) as (a & b & c & E1 & E2). destruct (mirror_rates _ _ Mk) as (a' & b' & c' & E1' & E2').
  assert (Q : forall i j, comes_from 3 k i j -> nth_error [a'; b'; c'] j = nth_error [a; b; c] i).
  { intros i j C. rewrite <- E1, <- E1'. apply (turned_rates _ _ _ _ T). auto. }
  assert (PM : proper 3 m) by apply (mirror_keeps _ _ M).
  assert (K : (k = 0 \/ k = 1 \/ k = 2)%nat) by lia.
  constructor.
  - intros E. apply (mirror_keeps _ _ Mk). apply (turned_none _ _ _ _ T). apply (mirror_keeps _ _ M). auto.
  - intros i E Hi.
    assert (exists i', d_state d = Z.of_nat (S i') /\ (i' < 3)%nat /\ (i', i) = (if Nat.eq_dec i 0 then 0 else 3 - i, i)%nat) as (i' & Ei & Hi' & Ei').
    { destruct (mirror_state _ _ M) as [F|[F|[F|F]]]; injection F as F1 F2; rewrite F1; rewrite F2 in E;
        destruct i as [|[|[|i]]]; try lia; [exists 0%nat|exists 1%nat|exists 2%nat]; (split; [lia|split; [lia|reflexivity]]). }
    injection Ei' as Ei'. destruct (turned_state _ _ _ _ T i' Ei Hi') as (j & (_ & Hj & Cj) & Ej).
    exists (if Nat.eq_dec j 0 then 0 else 3 - j)%nat. split.
    + split; auto. split; [destruct (Nat.eq_dec j 0); lia|].
      destruct K as [->|[->| ->]]; destruct i as [|[|[|i]]]; try lia; cbn in Ei'; subst i'; cbn in Cj; subst j; reflexivity.
    + destruct (mirror_state _ _ Mk) as [F|[F|[F|F]]]; injection F as F1 F2; rewrite F2; rewrite F1 in Ej;
        destruct j as [|[|[|j]]]; cbn; try lia.
  - rewrite E2, E2'. reflexivity.
  - intros i j C. rewrite E2, E2'. clear - Q K C.
    destruct K as [->|[->| ->]]; destruct C as (Hi & Hj & C); cbn [Nat.sub Nat.modulo Nat.divmod] in C;
      destruct i as [|[|[|i]]]; try lia; cbn in C; subst j; cbn;
      [apply (Q 0 0)%nat|apply (Q 2 2)%nat|apply (Q 1 1)%nat
      |apply (Q 0 1)%nat|apply (Q 2 0)%nat|apply (Q 1 2)%nat
      |apply (Q 0 2)%nat|apply (Q 2 1)%nat|apply (Q 1 0)%nat]; repeat split; lia.
  - destruct (mirror_position _ _ M) as [Mx My], (mirror_position _ _ Mk) as [Kx Ky].
    rewrite <- neighbour_angle_mod by lia.
    assert (A : neighbour_angle 3 (3 - k) = - neighbour_angle 3 k + 2 * PI * INR 1).
    { unfold neighbour_angle. rewrite minus_INR by lia. cbn [INR]. field. }
    rewrite A, rotate_turns. rewrite (turned_position _ _ _ _ T) in Kx, Ky.
    apply pt_eq; [rewrite Kx|rewrite Ky]; unfold rotate; cbn; rewrite cos_neg, sin_neg, Mx, My; ring.
  - rewrite (mirror_time _ _ Mk), (turned_time _ _ _ _ T), (mirror_time _ _ M). auto.
  - rewrite (mirror_context _ _ Mk), (turned_context _ _ _ _ T), (mirror_context _ _ M). auto.
Qed.

(** * the model *)
Lemma reflect_mirror d : proper 3 d -> exists d', reflect_transition 3 d = Ok d' /\ mirror_of d d'.
Proof.
  intros [Hs Hl]. unfold reflect_transition. rewrite Hl. cbn [Nat.eqb negb].
  eexists. split; [reflexivity|]. destruct d as [s t r p c]. cbn in *.
  destruct r as [|a [|b [|e [|? ?]]]]; cbn in Hl; try discriminate.
  constructor; cbn; auto.
  - assert (s = 0 \/ s = 1 \/ s = 2 \/ s = 3)%Z as [->|[->|[->| ->]]] by lia; cbn; auto.
  - exists a, b, e. split; auto. repeat (f_equal; try ring).
  - split; ring.
Qed.
Lemma reflect_dataset_mirrors ds : Forall (proper 3) ds -> exists refs, reflect_dataset ds = Ok refs /\ Forall2 mirror_of ds refs.
Proof.
  unfold reflect_dataset. induction 1 as [|d ds P _ (refs & E & F)]; [exists []; split; [reflexivity|constructor]|].
  destruct (reflect_mirror d P) as (d' & Ed & Md). exists (d' :: refs). split; [|constructor; auto].
  cbn [map_res]. rewrite Ed. cbn [bind]. rewrite E. reflexivity.
Qed.

Lemma Forall2_len {A B} (Q : A -> B -> Prop) l l' : Forall2 Q l l' -> length l = length l'.
Proof. induction 1; cbn; congruence. Qed.
(** the symmetric copies of a dataset, in order *)
Lemma flat_map_copies N (ds : list datapoint) i k : (k < N)%nat ->
  nth_error (flat_map (get_transition_rotations N) ds) (i * N + k) = option_map (fun d => rotate_datapoint N d k) (nth_error ds i).
Proof.
  intros Hk. revert i. induction ds as [|d ds IH]; intros i.
  { cbn. destruct (i * N + k)%nat, i; reflexivity. }
  cbn [flat_map]. assert (L : length (get_transition_rotations N d) = N) by (unfold get_transition_rotations; rewrite map_length, seq_length; auto).
  destruct i as [|i].
  - cbn [Nat.mul Nat.add nth_error option_map]. rewrite nth_error_app1 by lia. apply nth_error_map_seq. auto.
  - rewrite nth_error_app2 by (cbn; lia). rewrite L. replace (S i * N + k - N)%nat with (i * N + k)%nat by (cbn; lia). apply IH.
Qed.
Lemma flat_map_copies_length N ds : length (flat_map (get_transition_rotations N) ds) = (N * length ds)%nat.
Proof.
  induction ds as [|d ds IH]; cbn; [lia|]. rewrite app_length, IH. unfold get_transition_rotations.
  rewrite map_length, seq_length. lia.
Qed.

(** C69: what a dataset with N states becomes when rotated: for each row, in
    order, its N turns, the first of which is the row itself *)
Theorem rotate_dataset_copies N ds : (N <> 0)%nat -> Forall (proper N) ds ->
  exists out, rotate_dataset N ds = Ok out /\ length out = (N * length ds)%nat /\
  (forall i k d, (k < N)%nat -> nth_error ds i = Some d ->
     exists d', nth_error out (i * N + k) = Some d' /\ turned_by N k d d').
Proof.
  intros HN P. destruct N as [|N']; [lia|]. set (N := S N') in *.
  exists (flat_map (get_transition_rotations N) ds). split; [reflexivity|]. split; [apply flat_map_copies_length|].
  intros i k d Hk E. rewrite flat_map_copies, E by auto. cbn. eexists. split; [reflexivity|].
  apply rotate_datapoint_turned; auto. rewrite Forall_forall in P. apply P. eapply nth_error_In; eauto.
Qed.
Print Assumptions rotate_dataset_copies.

(** C69: the augmented data: each row and its mirror image, turned by 0, 1 and 2 *)
Theorem augment_copies ds : Forall (proper 3) ds ->
  exists refs out, Forall2 mirror_of ds refs /\ augment_data true 3 ds = Ok out /\ length out = (2 * 3 * length ds)%nat /\
  (forall i k d, (k < 3)%nat -> nth_error (ds ++ refs) i = Some d ->
     exists d', nth_error out (i * 3 + k) = Some d' /\ turned_by 3 k d d').
Proof.
  intros P. destruct (reflect_dataset_mirrors ds P) as (refs & E & F).
  assert (PR : Forall (proper 3) refs).
  { clear - F. induction F; constructor; auto. apply (mirror_keeps _ _ H). }
  destruct (rotate_dataset_copies 3 (ds ++ refs)) as (out & Eo & Lo & Co); [lia|apply Forall_app; auto|].
  exists refs, out. split; auto. split; [unfold augment_data; rewrite E; exact Eo|].
  split; [rewrite Lo, app_length, <- (Forall2_len _ _ _ F); lia|]. exact Co.
Qed.
Theorem augment_no_reflection N ds : augment_data false N ds = rotate_dataset N ds.
Proof. reflexivity. Qed.
Print Assumptions augment_copies.

Lemma Forall2_nth_l {A B} (Q : A -> B -> Prop) l l' i y : Forall2 Q l l' -> nth_error l' i = Some y ->
  exists x, nth_error l i = Some x /\ Q x y.
Proof. intros F. revert i. induction F; intros [|i] E; cbn in *; try discriminate; [injection E as <-; eauto|eauto]. Qed.
(** C69: every row of the result is a copy of a row of the data *)
Theorem augment_rows ds out d' : Forall (proper 3) ds -> augment_data true 3 ds = Ok out -> In d' out ->
  exists d, In d ds /\ copy_of d d'.
Proof.
  intros P E H. destruct (augment_copies ds P) as (refs & out' & F & E' & L & C). rewrite E in E'. injection E' as <-.
  apply In_nth_error in H. destruct H as (n & Hn).
  assert (Ln : (n < 2 * 3 * length ds)%nat) by (rewrite <- L; apply nth_error_Some; congruence).
  assert (Dn : (n = n / 3 * 3 + n mod 3)%nat) by (rewrite Nat.mul_comm; apply Nat.div_mod; lia).
  assert (Hk : (n mod 3 < 3)%nat) by (apply Nat.mod_upper_bound; lia).
  assert (Hi : (n / 3 < length (ds ++ refs))%nat).
  { rewrite app_length, <- (Forall2_len _ _ _ F). apply Nat.div_lt_upper_bound; lia. }
  destruct (nth_error (ds ++ refs) (n / 3)) as [d|] eqn:Ed; [|apply nth_error_None in Ed; lia].
  destruct (C _ _ _ Hk Ed) as (d'' & E'' & T). rewrite <- Dn, Hn in E''. injection E'' as <-.
  destruct (Nat.lt_ge_cases (n / 3) (length ds)) as [Hl|Hl].
  - rewrite nth_error_app1 in Ed by auto. exists d. split; [eapply nth_error_In; eauto|]. exists (n mod 3)%nat. auto.
  - rewrite nth_error_app2 in Ed by auto. destruct (Forall2_nth_l _ _ _ _ _ F Ed) as (x & Ex & Mx).
    exists x. split; [eapply nth_error_In; eauto|]. exists (n mod 3)%nat. split; auto. right. exists d. auto.
Qed.
Print Assumptions augment_rows.

(** C69: a copy keeps the rate of the move made, "no move", the time and the
    context, and its rates are right for its beam position *)
Theorem copy_keeps d d' : proper 3 d -> copy_of d d' ->
  proper 3 d' /\ (d_state d' = 0%Z <-> d_state d = 0%Z) /\ rate_of_move d' = rate_of_move d /\
  d_time d' = d_time d /\ d_context d' = d_context d /\
  (forall f, mirror_symmetric f -> described_by 3 f d -> described_by 3 f d').
Proof.
  intros P (k & Hk & [T|(m & M & T)]).
  - destruct (turned_keeps _ _ _ _ P T) as (A & B & C & D & E). do 5 (split; [assumption|]). intros g _ Df. apply (turned_described 3 g k d); auto.
  - destruct (mirror_keeps _ _ M) as (A' & B' & C' & D' & E'). destruct (turned_keeps _ _ _ _ A' T) as (A & B & C & D & E).
    split; auto. split; [tauto|]. split; [congruence|]. split; [congruence|]. split; [congruence|].
    intros f Sf Df. apply (turned_described 3 f k m); auto. apply (mirror_described f d); auto.
Qed.
Print Assumptions copy_keeps.

(** C69: the augmented data is closed: a turn or a mirror image of one of its
    rows is one of its rows *)
Theorem augment_closed ds out d' d'' : Forall (proper 3) ds -> augment_data true 3 ds = Ok out -> In d' out ->
  copy_of d' d'' -> In d'' out.
Proof.
  intros P E H C. destruct (augment_rows ds out d' P E H) as (d & Hd & Cd).
  destruct (augment_copies ds P) as (refs & out' & F & E' & L & Q). rewrite E in E'. injection E' as <-.
  assert (Pd : proper 3 d) by (rewrite Forall_forall in P; auto).
  assert (IT : forall k x y, (k < 3)%nat -> In x (ds ++ refs) -> proper 3 x -> turned_by 3 k x y -> In y out).
  { intros k x y Hk Hx Px T. apply In_nth_error in Hx. destruct Hx as (i & Ei). destruct (Q _ _ _ Hk Ei) as (y' & Ey & T').
    rewrite (turned_by_unique _ _ _ _ _ Px T T'). eapply nth_error_In; eauto. }
  assert (IM : forall m, mirror_of d m -> In m refs).
  { intros m M. apply In_nth_error in Hd. destruct Hd as (i & Ei). clear - F Ei M. revert i Ei.
    induction F as [|x y l l' Hxy F IH]; intros [|i] Ei; cbn in Ei; try discriminate; [injection Ei as ->; left; eapply mirror_unique; eauto|right; eauto]. }
  assert (IC : forall y, copy_of d y -> In y out).
  { intros y (k & Hk & [T|(m & M & T)]); [apply (IT k d); auto; apply in_or_app; auto|].
    apply (IT k m); auto; [apply in_or_app; right; auto|apply (mirror_keeps _ _ M)]. }
  apply IC. clear IC IM IT Q. destruct C as (m & Hm & C).
  assert (CT : forall x k y, (k < 3)%nat -> proper 3 x -> copy_of d x -> turned_by 3 k x y -> copy_of d y).
  { intros x k y Hk Px (j & Hj & [T|(z & M & T)]) T'; exists ((j + k) mod 3)%nat; (split; [apply Nat.mod_upper_bound; lia|]).
    - left. eapply turned_compose; eauto.
    - right. exists z. split; auto. eapply turned_compose; eauto. apply (mirror_keeps _ _ M). }
  assert (Pd' : proper 3 d') by (eapply copy_keeps; eauto).
  destruct C as [T|(z & M & T)]; [eapply CT; eauto|].
  apply (CT z m); auto; [apply (mirror_keeps _ _ M)|].
  destruct (reflect_mirror d Pd) as (md & _ & Md).
  destruct Cd as (j & Hj & [T'|(y & My & T')]); exists ((3 - j) mod 3)%nat; (split; [apply Nat.mod_upper_bound; lia|]).
  - right. exists md. split; auto. apply (mirror_turn j d d'); auto.
  - left. pose proof (mirror_unique _ _ _ My Md) as ->. apply (mirror_turn j md d'); auto; [apply (mirror_keeps _ _ Md)|apply mirror_involution; auto].
Qed.
Print Assumptions augment_closed.

(** C69: when it raises *)
Theorem augment_raises reflect N ds :
  (N = 0%nat -> augment_data false N ds = Raise ValueError) /\
  (forall d, reflect_transition N d = Raise NotImplementedError <-> N <> 3%nat) /\
  ((exists d, In d ds /\ length (d_rates d) <> 3%nat) -> augment_data true N ds = Raise TypeError) /\
  (N <> 0%nat -> (reflect = true -> Forall (fun d => length (d_rates d) = 3%nat) ds) -> exists out, augment_data reflect N ds = Ok out).
Proof.
  split; [intros ->; reflexivity|]. split.
  { intros d. unfold reflect_transition. destruct (Nat.eqb_spec N 3) as [->|H]; cbn [negb].
    - split; [destruct (length (d_rates d) =? 3)%nat; discriminate|tauto].
    - tauto. }
  assert (A : forall l, (exists d, In d l /\ length (d_rates d) <> 3%nat) -> reflect_dataset l = Raise TypeError).
  { induction l as [|x l IH]; intros (d & Hd & L); [destruct Hd|]. unfold reflect_dataset in *. cbn [map_res].
    destruct (Nat.eqb_spec (length (d_rates x)) 3) as [Ex|Ex].
    - unfold reflect_transition at 1. rewrite Ex. cbn [Nat.eqb negb bind]. rewrite IH; [reflexivity|].
      destruct Hd as [->|Hd]; [tauto|eauto].
    - unfold reflect_transition at 1. destruct (Nat.eqb_spec (length (d_rates x)) 3); [tauto|]. reflexivity. }
  split; [intros H; unfold augment_data; rewrite (A ds H); reflexivity|].
  intros HN HF. destruct N as [|N]; [lia|]. unfold augment_data. destruct reflect; [|eexists; reflexivity].
  assert (B : exists refs, reflect_dataset ds = Ok refs).
  { specialize (HF eq_refl). unfold reflect_dataset. induction HF as [|x l Hx _ (refs & E)]; [eexists; reflexivity|].
    cbn [map_res]. unfold reflect_transition at 1. rewrite Hx. cbn [Nat.eqb negb bind]. rewrite E. eexists; reflexivity. }
  destruct B as (refs & ->). eexists. reflexivity.
Qed.
Print Assumptions augment_raises.

(** a transition to neighbour 1 (label 2) and its six copies *)
Example augment_nonvacuous :
  let d := mkdatapoint 2 3 [5; 7; 11] (mkpt 1 2) (Some [4]) in
  let m := mkdatapoint 3 3 [5; 11; 7] (mkpt 1 (-2)) (Some [4]) in
  proper 3 d /\ mirror_of d m /\ rate_of_move d = Some 7 /\
  exists out, augment_data true 3 [d] = Ok out /\ map d_state out = [2; 3; 1; 3; 1; 2]%Z /\
  map d_rates out = [[5; 7; 11]; [11; 5; 7]; [7; 11; 5]; [5; 11; 7]; [7; 5; 11]; [11; 7; 5]].
Proof.
  cbn. split; [split; cbn; [lia|reflexivity]|]. split.
  { constructor; cbn; auto. exists 5, 7, 11. auto. }
  split; [reflexivity|]. eexists. split; [reflexivity|]. split; [reflexivity|].
  cbn. unfold rotate_attributes. cbn.
  change (Pos.to_nat 1) with 1%nat. change (Pos.to_nat 2) with 2%nat. cbn. repeat (f_equal; try ring).
Qed.

(** * Synthetic transitions *)

(** the rate of the prior, 0.85 bonds to the right of the silicon at its largest *)
Lemma prior_rate_bell p : prior_rate p = ln 2 / 3 * exp (- 5 * pdist p (mkpt (85/100) 0) ^ 2).
Proof.
  unfold prior_rate. rewrite prior_rate_formula by (rewrite default_cov_det; lra). unfold SIGR_PRIOR_MAX_RATE. f_equal. f_equal.
  replace (pdist p (mkpt (85/100) 0) ^ 2) with (psq (psub p (mkpt (85/100) 0))) by (unfold pdist; rewrite <- pnorm_sq; ring).
  unfold quad, minv, psq. rewrite default_cov_det. unfold SIGR_PRIOR_RATE_COV, SIGR_PRIOR_RATE_MEAN. cbn. field.
Qed.

(** rates that grow with the x coordinate of the beam: a symmetric field, and a
    transition that it describes *)
Example described_nonvacuous :
  let f := fun p => 3 + px p in
  mirror_symmetric f /\ described_by 3 f (mkdatapoint 2 3 [5; 2; 2] (mkpt 2 0) None).
Proof.
  cbv zeta. split; [intros p; reflexivity|]. split; [reflexivity|]. intros i Hi.
  assert (C : cos (2 * (PI / 3)) = - 1 / 2) by (rewrite cos_2PI3; lra).
  destruct i as [|[|[|i]]]; [| | |lia]; cbn [nth_error d_rates d_position]; f_equal; unfold rotate, neighbour_angle; cbn [px py INR]; rewrite cos_neg.
  - replace (2 * PI * (0 / _)) with 0 by (field; lra). rewrite cos_0. lra.
  - replace (2 * PI * (1 / _)) with (2 * (PI / 3)) by (field; lra). rewrite C. lra.
  - replace (2 * PI * ((1 + 1) / _)) with (2 * (2 * (PI / 3))) by (field; lra). rewrite cos_2a_cos, C. lra.
Qed.

(** C69: labels that name no neighbour: above 3 they are mirrored like 3, below
    -1 like -2 *)
Theorem mirror_other_labels d : length (d_rates d) = 3%nat ->
  exists d', reflect_transition 3 d = Ok d' /\ ((3 < d_state d)%Z -> d_state d' = 2%Z) /\ ((d_state d < -1)%Z -> d_state d' = (-1)%Z).
Proof.
  intros L. unfold reflect_transition. rewrite L. cbn [Nat.eqb negb]. eexists. split; [reflexivity|]. cbn [d_state]. unfold jnp_index. cbn [length].
  split; intros H.
  - destruct (Z.ltb_spec (d_state d - 1) 0); [lia|]. rewrite (Z.sgn_pos (d_state d)) by lia. rewrite Z.min_r by lia. reflexivity.
  - destruct (Z.ltb_spec (d_state d - 1) 0); [|lia]. rewrite (Z.sgn_neg (d_state d)) by lia. rewrite Z.max_l by lia. reflexivity.
Qed.
Print Assumptions mirror_other_labels.

(** C69: a synthetic transition: a proper label, consistent with the waiting time
    and with the rates; the rate of the j-th neighbour is that of the prior at
    the beam position before it was turned, turned to neighbour i *)
Theorem sample_from_prior_row N p c choice k u t : (k < N)%nat -> (forall l, (choice l < N)%nat) ->
  let rate i := prior_rate (rotate p (neighbour_angle N i)) in
  let total := rsum (map rate (seq 0 N)) in
  let d := sample_from_prior N p c choice k u t in
  proper N d /\ d_time d = t /\ d_context d = Some c /\ d_position d = rotate p (neighbour_angle N k) /\
  (forall i j, comes_from N k i j -> nth_error (d_rates d) j = Some (rate i)) /\
  (0 < u -> - ln u / total < t -> rate_of_move d = Some (rate (choice (map (fun i => rate i / total) (seq 0 N))))) /\
  (u <= 0 \/ t <= - ln u / total -> d_state d = 0%Z).
Proof.
  intros Hk Hc rate total. assert (HN : (N <> 0)%nat) by lia.
  assert (ER : map prior_rate (get_all_position_rotations p N) = map rate (seq 0 N)).
  { unfold get_all_position_rotations. rewrite map_map. apply map_ext. intros i. unfold rate. rewrite step_neighbour by auto. reflexivity. }
  unfold sample_from_prior. rewrite ER. fold total. rewrite map_map.
  set (s := choice (map (fun i => rate i / total) (seq 0 N))). assert (Hs : (s < N)%nat) by apply Hc.
  assert (RN : forall i j, comes_from N k i j -> nth_error (rotate_attributes (map rate (seq 0 N)) (Z.of_nat k) 0) j = Some (rate i)).
  { intros i j C. rewrite (roll_nth _ k i j) by (rewrite map_length, seq_length; auto). apply nth_error_map_seq. apply C. }
  assert (RI : rotate_index (Z.of_nat s) (Z.of_nat k) N = Z.of_nat ((s + k) mod N)).
  { unfold rotate_index. rewrite <- Nat2Z.inj_add, <- Nat2Z.inj_mod. reflexivity. }
  cbn. rewrite RI. pose proof (Nat.mod_upper_bound (s + k) N HN) as HB.
  split; [split; cbn; [destruct (transitions _ _ _); lia|rewrite roll_length, map_length, seq_length; auto]|].
  split; auto. split; auto. split; [rewrite step_neighbour by auto; reflexivity|]. split; auto.
  split.
  - intros HU HT. unfold rate_of_move. cbn [d_state d_rates]. unfold transitions.
    apply Rltb_true in HT, HU. rewrite HT, HU. cbn [andb].
    destruct (Z.eq_dec _ _) as [EE|_]; [lia|]. rewrite Z.add_simpl_r, Nat2Z.id. apply RN. apply comes_from_ex. auto.
  - unfold transitions. intros [HU|HT].
    + apply Rltb_false in HU. rewrite HU. reflexivity.
    + apply Rltb_false in HT. rewrite HT, andb_false_r. reflexivity.
Qed.
Print Assumptions sample_from_prior_row.

(** C69: the rates of a synthetic transition are no function of its beam
    position: the beam is turned forwards, where the rates of the turned
    position would be those turned backwards.  For one beam position, 0.85 bonds
    to the right, the rate of the first neighbour depends on a random number of
    rotations. *)
Theorem synthetic_rates_refuted c choice u t :
  ~ exists f : pt -> list R, forall p k, (k < 3)%nat ->
    d_rates (sample_from_prior 3 p c choice k u t) = f (d_position (sample_from_prior 3 p c choice k u t)).
Proof.
  intros (f & F). set (q := mkpt (85/100) 0).
  pose proof (F q 0%nat ltac:(lia)) as F0. pose proof (F (rotate q (- neighbour_angle 3 1)) 1%nat ltac:(lia)) as F1.
  unfold sample_from_prior in F0, F1. cbn [d_rates d_position] in F0, F1. rewrite !step_neighbour in F0, F1 by lia.
  rewrite rotate_compose, Rplus_opp_l, rotate_0 in F1.
  assert (N0 : neighbour_angle 3 0 = 0) by (unfold neighbour_angle; cbn; lra).
  rewrite N0, rotate_0 in F0. rewrite <- F0 in F1. clear F F0.
  assert (H : nth_error (rotate_attributes (map prior_rate (get_all_position_rotations (rotate q (- neighbour_angle 3 1)) 3)) (Z.of_nat 1) 0) 0 =
              nth_error (rotate_attributes (map prior_rate (get_all_position_rotations q 3)) (Z.of_nat 0) 0) 0) by (f_equal; exact F1).
  rewrite (roll_nth _ 1 2 0) in H by (cbn; repeat split; lia). rewrite (roll_nth _ 0 0 0) in H by (cbn; repeat split; lia).
  cbn in H. injection H as H.
  change 2%Z with (Z.of_nat 2) in H at 1. change 0%Z with (Z.of_nat 0) in H.
  rewrite !(step_neighbour 3 2%nat), !(step_neighbour 3 0%nat), N0, rotate_0, rotate_compose in H by lia.
  replace (- neighbour_angle 3 1 + neighbour_angle 3 2) with (2 * (PI / 3)) in H by (unfold neighbour_angle; cbn; field).
  rewrite !prior_rate_bell in H.
  assert (P : 0 < ln 2 / 3) by (pose proof ln_lt_2; lra).
  apply Rmult_eq_reg_l in H; [|lra]. apply exp_inv in H.
  assert (SQ : forall p p', pdist p p' ^ 2 = psq (psub p p')) by (intros; unfold pdist; rewrite <- pnorm_sq; ring).
  rewrite !SQ in H. unfold psq, rotate, q in H. cbn in H.
  rewrite cos_2PI3, sin_2PI3 in H. pose proof (sqrt_sqrt 3 ltac:(lra)). nra.
Qed.
Print Assumptions synthetic_rates_refuted.

Print Assumptions turned_by_unique.
Print Assumptions turned_keeps.
Print Assumptions turned_compose.
Print Assumptions turned_zero.
Print Assumptions mirror_unique.
Print Assumptions mirror_involution.
Print Assumptions mirror_keeps.
Print Assumptions turned_described.
Print Assumptions mirror_described.
Print Assumptions mirror_turn.
Print Assumptions augment_no_reflection.
