(** Rotations, polar angles, nearest neighbours. *)
From Coq Require Import Reals ZArith List Bool Lia Lra Arith Permutation Sorted.
From Verif Require Import Base.Prelude Model.Geometry Proofs.BaseFacts.
Import ListNotations.
Open Scope R_scope.

Lemma rotate_psq p t : psq (rotate p t) = psq p.
Proof.
  unfold psq, rotate; simpl. pose proof (sin2_cos2 t) as E; unfold Rsqr in E.
  transitivity ((px p * px p + py p * py p) * (sin t * sin t + cos t * cos t)); [ring|].
  rewrite E; ring.
Qed.
Lemma rotate_norm p t : pnorm (rotate p t) = pnorm p.
Proof. unfold pnorm; rewrite rotate_psq; reflexivity. Qed.
Lemma rotate_sub p q t : psub (rotate p t) (rotate q t) = rotate (psub p q) t.
Proof. apply pt_eq; simpl; ring. Qed.
Lemma rotate_add p q t : padd (rotate p t) (rotate q t) = rotate (padd p q) t.
Proof. apply pt_eq; simpl; ring. Qed.
Lemma rotate_dist p q t : pdist (rotate p t) (rotate q t) = pdist p q.
Proof. unfold pdist; rewrite rotate_sub; apply rotate_norm. Qed.
Lemma rotate_zero_pt t : rotate pzero t = pzero.
Proof. apply pt_eq; simpl; ring. Qed.
Lemma rotate_compose p s t : rotate (rotate p s) t = rotate p (s + t).
Proof. apply pt_eq; simpl; rewrite ?cos_plus, ?sin_plus; ring. Qed.
Lemma rotate_0 p : rotate p 0 = p.
Proof. apply pt_eq; simpl; rewrite sin_0, cos_0; ring. Qed.
Lemma rotate_inv p t : rotate (rotate p t) (- t) = p.
Proof. rewrite rotate_compose, Rplus_opp_r; apply rotate_0. Qed.
Lemma rotate_period p t : rotate p (t + 2 * PI) = rotate p t.
Proof. unfold rotate; rewrite sin_plus, cos_plus, sin_2PI, cos_2PI; apply pt_eq; simpl; ring. Qed.
Lemma rotate_polar r a t :
  rotate (mkpt (r * cos a) (r * sin a)) t = mkpt (r * cos (a + t)) (r * sin (a + t)).
Proof. unfold rotate; simpl; rewrite cos_plus, sin_plus; apply pt_eq; simpl; ring. Qed.

(** ** polar form of atan2 *)
Lemma sqrt_ratio x y : x <> 0 -> sqrt (1 + Rsqr (y / x)) = pnorm (mkpt x y) / Rabs x.
Proof.
  intro Hx. unfold pnorm, psq; simpl.
  assert (Ha : 0 < Rabs x) by (apply Rabs_pos_lt; auto).
  replace (1 + Rsqr (y / x)) with ((x * x + y * y) / (Rabs x * Rabs x)).
  2: { replace (Rabs x * Rabs x) with (x * x)
         by (fold (Rsqr x); fold (Rsqr (Rabs x)); apply Rsqr_abs).
       unfold Rsqr; field; auto. }
  rewrite sqrt_div_alt by nra. rewrite sqrt_square by lra. reflexivity.
Qed.

Lemma norm_pos x y : x <> 0 \/ y <> 0 -> 0 < pnorm (mkpt x y).
Proof.
  intro H. destruct (pnorm_nonneg (mkpt x y)) as [|E]; auto.
  symmetry in E; apply pnorm_zero in E; unfold pzero in E; injection E; intros; lra.
Qed.

Lemma atan2_polar y x :
  pnorm (mkpt x y) * cos (atan2 y x) = x /\ pnorm (mkpt x y) * sin (atan2 y x) = y.
Proof.
  unfold atan2.
  destruct (Rltb 0 x) eqn:E1; rb.
  { assert (N : 0 < pnorm (mkpt x y)) by (apply norm_pos; lra).
    rewrite cos_atan, sin_atan, sqrt_ratio by lra. rewrite Rabs_pos_eq by lra.
    split; field; lra. }
  destruct (Rltb x 0) eqn:E2; rb.
  { assert (N : 0 < pnorm (mkpt x y)) by (apply norm_pos; lra).
    destruct (Rleb 0 y) eqn:E3; rb.
    - rewrite neg_cos, neg_sin, cos_atan, sin_atan, sqrt_ratio by lra.
      rewrite Rabs_left by lra. split; field; lra.
    - replace (cos (atan (y / x) - PI)) with (- cos (atan (y / x)))
        by (rewrite cos_minus, cos_PI, sin_PI; ring).
      replace (sin (atan (y / x) - PI)) with (- sin (atan (y / x)))
        by (rewrite sin_minus, cos_PI, sin_PI; ring).
      rewrite cos_atan, sin_atan, sqrt_ratio by lra.
      rewrite Rabs_left by lra. split; field; lra. }
  assert (x = 0) by lra; subst x.
  destruct (Rltb 0 y) eqn:E3; rb.
  { rewrite cos_PI2, sin_PI2. unfold pnorm, psq; simpl.
    replace (0 * 0 + y * y) with (y * y) by ring. rewrite sqrt_square by lra. lra. }
  destruct (Rltb y 0) eqn:E4; rb.
  { rewrite cos_neg, sin_neg, cos_PI2, sin_PI2. unfold pnorm, psq; simpl.
    replace (0 * 0 + y * y) with ((- y) * (- y)) by ring. rewrite sqrt_square by lra. lra. }
  assert (y = 0) by lra; subst y.
  replace (pnorm (mkpt 0 0)) with 0; [lra|]. symmetry; apply pnorm_zero; reflexivity.
Qed.

Lemma atan2_range y x : - PI < atan2 y x <= PI.
Proof.
  unfold atan2. pose proof PI_RGT_0 as HP.
  pose proof (atan_bound (y / x)) as HB.
  destruct (Rltb 0 x) eqn:E1; rb; [lra|].
  destruct (Rltb x 0) eqn:E2; rb.
  { destruct (Rleb 0 y) eqn:E3; rb.
    - assert (y / x <= 0).
      { unfold Rdiv. assert (/ x < 0) by (apply Rinv_lt_0_compat; auto). nra. }
      assert (atan (y / x) <= 0).
      { destruct H as [H|H]; [left; rewrite <- atan_0; apply atan_increasing; auto|].
        rewrite H, atan_0; lra. }
      lra.
    - assert (0 < y / x).
      { unfold Rdiv. assert (/ x < 0) by (apply Rinv_lt_0_compat; auto). nra. }
      assert (0 < atan (y / x)) by (rewrite <- atan_0; apply atan_increasing; auto).
      lra. }
  destruct (Rltb 0 y); [lra|]. destruct (Rltb y 0); lra.
Qed.

Lemma get_angle_polar p : p = mkpt (pnorm p * cos (get_angle p)) (pnorm p * sin (get_angle p)).
Proof.
  destruct p as [x y]; unfold get_angle; simpl.
  destruct (atan2_polar y x) as [H1 H2]; rewrite H1, H2; reflexivity.
Qed.
Lemma get_angle_zero : get_angle pzero = 0.
Proof.
  unfold get_angle, atan2, pzero; simpl. rdecide. reflexivity.
Qed.

(** the polar angle in (-PI, PI] is unique *)
Lemma polar_unique r a b : 0 < r -> - PI < a <= PI -> - PI < b <= PI ->
  r * cos a = r * cos b -> r * sin a = r * sin b -> a = b.
Proof.
  intros Hr Ha Hb Hc Hs.
  assert (Ec : cos a = cos b) by (apply Rmult_eq_reg_l with r; lra).
  assert (Es : sin a = sin b) by (apply Rmult_eq_reg_l with r; lra).
  (* cos (a-b) = 1 with |a - b| < 2 PI *)
  assert (C : cos (a - b) = 1).
  { rewrite cos_minus, Ec, Es. pose proof (sin2_cos2 b) as E; unfold Rsqr in E; lra. }
  assert (Hs2 : sin ((a - b) / 2) = 0).
  { assert (E : cos (a - b) = 1 - 2 * sin ((a - b) / 2) * sin ((a - b) / 2)).
    { replace (a - b) with (2 * ((a - b) / 2)) at 1 by field.
      rewrite cos_2a_sin. ring. }
    assert (sin ((a - b) / 2) * sin ((a - b) / 2) = 0) by lra.
    apply Rmult_integral in H; tauto. }
  destruct (Rtotal_order ((a - b) / 2) 0) as [H|[H|H]].
  - assert (sin ((a - b) / 2) < 0).
    { apply sin_lt_0_var; lra. }
    lra.
  - lra.
  - assert (0 < sin ((a - b) / 2)) by (apply sin_gt_0; lra). lra.
Qed.
Lemma get_angle_polar_form r a : 0 < r -> - PI < a <= PI ->
  get_angle (mkpt (r * cos a) (r * sin a)) = a.
Proof.
  intros Hr Ha. set (p := mkpt (r * cos a) (r * sin a)).
  assert (N : pnorm p = r).
  { unfold pnorm, p, psq; simpl.
    replace (r * cos a * (r * cos a) + r * sin a * (r * sin a)) with (r * r).
    - apply sqrt_square; lra.
    - pose proof (sin2_cos2 a) as E; unfold Rsqr in E.
      transitivity (r * r * (sin a * sin a + cos a * cos a)); [rewrite E; ring|ring]. }
  apply (polar_unique r); auto.
  - unfold get_angle; apply atan2_range.
  - pose proof (get_angle_polar p) as E. rewrite N in E.
    apply (f_equal px) in E; simpl in E. lra.
  - pose proof (get_angle_polar p) as E. rewrite N in E.
    apply (f_equal py) in E; simpl in E. lra.
Qed.

Lemma rotate_to_axis p : rotate p (- get_angle p) = mkpt (pnorm p) 0.
Proof.
  rewrite (get_angle_polar p) at 1. rewrite rotate_polar, Rplus_opp_r, cos_0, sin_0.
  apply pt_eq; simpl; ring.
Qed.
(** a vector on the positive x axis, rotated to the direction of p *)
Lemma rotate_axis_to r p : 0 < pnorm p ->
  rotate (mkpt r 0) (get_angle p) = pscale (r / pnorm p) p.
Proof.
  intro H. pose proof (get_angle_polar p) as E.
  pose proof (f_equal px E) as Ex. pose proof (f_equal py E) as Ey. simpl in Ex, Ey.
  apply pt_eq; simpl.
  - transitivity (r / pnorm p * (pnorm p * cos (get_angle p))); [field; lra|].
    f_equal; auto.
  - transitivity (r / pnorm p * (pnorm p * sin (get_angle p))); [field; lra|].
    f_equal; auto.
Qed.

(** * A nearest-neighbour search satisfying the contract *)
Fixpoint insert_by (d : nat -> R) (i : nat) (l : list nat) : list nat :=
  match l with
  | [] => [i]
  | j :: l' => if Rleb (d i) (d j) then i :: j :: l' else j :: insert_by d i l'
  end.
Definition sort_by (d : nat -> R) (l : list nat) : list nat :=
  fold_right (insert_by d) [] l.
Definition knn_sort : knn_fn := fun k pts q =>
  firstn k (sort_by (dist_at pts q) (seq 0 (length pts))).

Lemma insert_by_perm d i l : Permutation (i :: l) (insert_by d i l).
Proof.
  induction l as [|j l IH]; simpl; auto.
  destruct (Rleb (d i) (d j)); auto.
  rewrite perm_swap. constructor; auto.
Qed.
Lemma sort_by_perm d l : Permutation l (sort_by d l).
Proof.
  induction l as [|i l IH]; simpl; auto.
  rewrite <- insert_by_perm. constructor; auto.
Qed.
Lemma insert_by_sorted d i l :
  StronglySorted (fun a b => d a <= d b) l ->
  StronglySorted (fun a b => d a <= d b) (insert_by d i l).
Proof.
  induction 1 as [|j l HS IH HF]; simpl; [repeat constructor|].
  destruct (Rleb (d i) (d j)) eqn:E; rb.
  - constructor; [constructor; auto|]. constructor; auto.
    eapply Forall_impl; [|exact HF]. simpl; intros; lra.
  - constructor; auto.
    apply Forall_forall. intros x Hx.
    apply (Permutation_in _ (Permutation_sym (insert_by_perm d i l))) in Hx.
    destruct Hx as [<-|Hx]; [lra|]. rewrite Forall_forall in HF; auto.
Qed.
Lemma sort_by_sorted d l : StronglySorted (fun a b => d a <= d b) (sort_by d l).
Proof. induction l; simpl; [constructor|apply insert_by_sorted; auto]. Qed.

Lemma SSorted_nth {A} (R : A -> A -> Prop) l a b x y :
  StronglySorted R l -> (a < b)%nat -> nth_error l a = Some x -> nth_error l b = Some y ->
  R x y.
Proof.
  intro H; revert a b; induction H as [|z l HS IH HF]; intros a b Hab Ha Hb.
  - destruct a; discriminate.
  - destruct b as [|b]; [lia|]. destruct a as [|a]; simpl in *.
    + injection Ha; intros <-. rewrite Forall_forall in HF. apply HF.
      eapply nth_error_In; eauto.
    + apply (IH a b); auto; lia.
Qed.
Lemma nth_error_firstn {A} (l : list A) k i : (i < k)%nat ->
  nth_error (firstn k l) i = nth_error l i.
Proof.
  revert k i; induction l as [|x l IH]; intros [|k] [|i] H; simpl; auto; try lia.
  apply IH; lia.
Qed.
Lemma NoDup_firstn {A} k (l : list A) : NoDup l -> NoDup (firstn k l).
Proof.
  intro H; revert k; induction H; intros [|k]; simpl; constructor; auto.
  intro Hx. apply H. rewrite <- (firstn_skipn k l). apply in_or_app; auto.
Qed.
Lemma knn_sort_ok : knn_ok knn_sort.
Proof.
  assert (L : forall pts q, length (sort_by (dist_at pts q) (seq 0 (length pts))) = length pts).
  { intros. rewrite <- (Permutation_length (sort_by_perm _ _)). apply seq_length. }
  constructor.
  - intros. unfold knn_sort. apply firstn_length_le. rewrite L; auto.
  - intros. apply NoDup_firstn.
    eapply Permutation_NoDup; [apply sort_by_perm|apply seq_NoDup].
  - intros k pts q i _ H. unfold knn_sort in H.
    assert (H' : In i (sort_by (dist_at pts q) (seq 0 (length pts)))).
    { rewrite <- (firstn_skipn k). apply in_or_app; auto. }
    apply (Permutation_in _ (Permutation_sym (sort_by_perm _ _))) in H'.
    apply in_seq in H'; lia.
  - intros k pts q a b i j Hk Hab Ha Hb. unfold knn_sort in *.
    assert (Hb' : (b < k)%nat).
    { apply nth_error_lt in Hb. rewrite firstn_length in Hb. lia. }
    rewrite nth_error_firstn in Ha, Hb by lia.
    eapply (SSorted_nth (fun a b => dist_at pts q a <= dist_at pts q b));
      [apply sort_by_sorted|exact Hab|exact Ha|exact Hb].
  - intros k pts q i j Hk Hi Hj Hn. unfold knn_sort in *.
    set (s := sort_by (dist_at pts q) (seq 0 (length pts))) in *.
    assert (Hj' : In j s).
    { eapply Permutation_in; [apply sort_by_perm|]. apply in_seq; lia. }
    apply In_nth_error in Hi as [a Ha].
    assert (Ha' : (a < k)%nat).
    { apply nth_error_lt in Ha. rewrite firstn_length in Ha. lia. }
    rewrite nth_error_firstn in Ha by auto.
    apply In_nth_error in Hj' as [b Hb].
    assert (k <= b)%nat.
    { destruct (le_lt_dec k b); auto. exfalso; apply Hn.
      apply nth_error_In with b. rewrite nth_error_firstn; auto. }
    eapply (SSorted_nth (fun a b => dist_at pts q a <= dist_at pts q b));
      [apply sort_by_sorted| |exact Ha|exact Hb]. lia.
Qed.

(** * consequences of the contract *)

(** the nearest point *)
Lemma knn1_nearest knn pts q : knn_ok knn -> pts <> [] ->
  exists i, knn 1%nat pts q = [i] /\ (i < length pts)%nat /\
    forall j, (j < length pts)%nat -> dist_at pts q i <= dist_at pts q j.
Proof.
  intros K Hp. assert (Hl : (1 <= length pts)%nat) by (destruct pts; [contradiction|simpl; lia]).
  pose proof (knn_length _ K 1 pts q Hl) as L.
  destruct (knn 1%nat pts q) as [|i [|? ?]] eqn:E; try discriminate.
  exists i; split; auto. split.
  - apply (knn_range _ K 1 pts q i Hl). rewrite E; simpl; auto.
  - intros j Hj. destruct (Nat.eq_dec i j) as [->|Hij]; [lra|].
    apply (knn_nearest _ K 1 pts q i j Hl); auto; rewrite E; simpl; auto.
    intros [H|[]]; auto.
Qed.

(** a query equal to exactly one of the points finds that point first *)
Lemma knn_first_self knn k pts q s : knn_ok knn -> (S k <= length pts)%nat ->
  nth_error pts s = Some q -> (forall j, nth_error pts j = Some q -> j = s) ->
  exists l, knn (S k) pts q = s :: l.
Proof.
  intros K Hk Hs Hu.
  pose proof (knn_length _ K (S k) pts q Hk) as L.
  destruct (knn (S k) pts q) as [|i l] eqn:E; [discriminate|].
  exists l; f_equal.
  assert (Hi : (i < length pts)%nat).
  { apply (knn_range _ K (S k) pts q i Hk). rewrite E; simpl; auto. }
  assert (D : forall j, (j < length pts)%nat -> dist_at pts q i <= dist_at pts q j).
  { intros j Hj. destruct (in_dec Nat.eq_dec j (i :: l)) as [Hin|Hin].
    - apply In_nth_error in Hin as [b Hb]. destruct b as [|b].
      + simpl in Hb; injection Hb; intros ->; lra.
      + apply (knn_sorted _ K (S k) pts q 0 (S b) i j Hk); try lia; rewrite E; auto.
    - apply (knn_nearest _ K (S k) pts q i j Hk); auto; rewrite E; simpl; auto. }
  pose proof (nth_error_lt _ _ _ Hs) as Hsl.
  specialize (D s Hsl). unfold dist_at in D.
  rewrite (nth_error_nth_default _ _ pzero _ Hs), pdist_self in D.
  pose proof (pdist_nonneg (nth i pts pzero) q) as D0.
  apply Hu. assert (Z0 : pdist (nth i pts pzero) q = 0) by lra. apply pdist_zero in Z0.
  rewrite <- Z0. apply nth_error_nth'; auto.
Qed.
