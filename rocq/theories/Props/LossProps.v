(** C88: the loss of the rate network *)
From Coq Require Import Reals ZArith List Bool Arith Lia Lra.
From Verif Require Import Base.Prelude Model.DataUtils Model.LearnRates Spec.WaitingTimes Proofs.BaseFacts Proofs.ClumpFacts
  Proofs.LossFacts Proofs.RateFacts.
Import ListNotations.
Open Scope R_scope.

(** C88: the outcomes are a probability distribution *)
Theorem outcomes_distribution total c w t : weights_of c w -> 0 <= total * t -> distribution (outcomes total w t).
Proof.
  intros W T. assert (E : exp (- (total * t)) <= 1).
  { rewrite <- exp_0. destruct (Req_dec (total * t) 0) as [->|]; [rewrite Ropp_0; lra|]. left. apply exp_increasing. lra. }
  pose proof (exp_pos (- (total * t))). split.
  - unfold outcomes. cbn. fold (rsum (map (fun p => (1 - exp (- (total * t))) * p) w)).
    rewrite (rsum_scale (fun p => p)). rewrite map_id, (proj1 W). ring.
  - intros x [<-|Hx]; [lra|]. apply in_map_iff in Hx. destruct Hx as (p & <- & Hp). pose proof (weights_pos _ _ W p Hp). nra.
Qed.
Print Assumptions outcomes_distribution.

Lemma example_likelihood rates e p : likelihood rates e p ->
  next_state_loss rates (e_next_state e) (did_transition e) + total_rate_loss rates (e_dt e) (did_transition e) = - ln p.
Proof.
  intros (total & c & w & k & -> & W & Ek & Ep & U). unfold did_transition. rewrite Ek. change (example_loss (output total c) k (e_dt e) = - ln p).
  destruct k as [|k]; cbn in Ep.
  - injection Ep as <-. rewrite loss_stay, ln_exp. ring.
  - rewrite nth_error_map in Ep. destruct (nth_error w k) as [x|] eqn:Ex; [|discriminate]. injection Ep as <-.
    destruct U as [U|U]; [discriminate|]. unfold floor in U. rewrite (loss_move _ _ _ _ w) with (p := x); auto.
    + rewrite Rmin_left by lra. auto.
    + intros Hn. apply nth_error_None in Hn. apply nth_error_lt in Ex. destruct W as (_ & k' & _ & F). apply weights_map in F. subst w. rewrite map_length in Ex. lia.
Qed.

Section Batches.
Context {P ST K : Type}.
Implicit Types (f : apply_type P ST K) (batch : list example).

Lemma mean_plus {A} (f g : A -> R) l : mean (map (fun x => f x + g x) l) = mean (map f l) + mean (map g l).
Proof. unfold mean. rewrite !map_length, rsum_map_plus. unfold Rdiv. ring. Qed.
Lemma mean_scale {A} (f : A -> R) k l : mean (map (fun x => f x * k) l) = k * mean (map f l).
Proof. unfold mean. rewrite !map_length. rewrite (map_ext _ (fun x => k * f x)) by (intros; ring). rewrite rsum_scale. unfold Rdiv. ring. Qed.
Lemma combine_maps {A B C} (f : A -> B) (g : A -> C) l : combine (map f l) (map g l) = map (fun x => (f x, g x)) l.
Proof. induction l; cbn; congruence. Qed.

(** C88: with unit weights, the loss of a batch is the mean negative log-likelihood *)
Theorem loss_is_likelihood f params state batch key training predicted state' ps :
  f params state key (map e_context batch) training = Ok (predicted, state') -> length predicted = length batch ->
  Forall2 (fun re p => likelihood (fst re) (snd re) p) (combine predicted batch) ps ->
  exists r, batched_loss_fn _ _ _ f params state batch key training 1 1 = Ok r /\
    lr_loss _ r = mean (map (fun p => - ln p) ps) /\ lr_state _ r = state'.
Proof.
  intros E L F. unfold batched_loss_fn. rewrite E. cbn [bind]. eexists. split; [reflexivity|]. cbn. split; auto.
  rewrite combine_maps, map_map. f_equal. clear E L. induction F as [|[r e] p l ps H F IH]; cbn; auto. f_equal; auto.
  cbn in *. rewrite <- (example_likelihood _ _ _ H). ring.
Qed.
(** C88: with other weights, the weighted sum of the two mean losses that are returned *)
Theorem loss_weights f params state batch key training cw rw r :
  batched_loss_fn _ _ _ f params state batch key training cw rw = Ok r ->
  lr_loss _ r = cw * mean (lr_class_losses _ r) + rw * mean (lr_rate_losses _ r).
Proof.
  unfold batched_loss_fn. destruct (f _ _ _ _ _) as [[pr s]|e|]; try discriminate. cbn [bind]. intros E. injection E as <-. cbn.
  rewrite combine_maps, map_map. cbn. rewrite mean_plus, !mean_scale. ring.
Qed.
(** C88: what has not happened does not depend on where it could have gone *)
Theorem no_transition_no_class_loss f params state batch key training cw rw r : 
  batched_loss_fn _ _ _ f params state batch key training cw rw = Ok r ->
  forall i e, nth_error batch i = Some e -> e_next_state e = 0%Z -> forall l, nth_error (lr_class_losses _ r) i = Some l -> l = 0.
Proof.
  unfold batched_loss_fn. destruct (f _ _ _ _ _) as [[pr s]|e0|]; try discriminate. cbn [bind]. intros E. injection E as <-. cbn.
  intros i e Ee Z l El. rewrite nth_error_map in El. destruct (nth_error (combine pr batch) i) as [[rt e']|] eqn:Ec; [|discriminate]. cbn in El. injection El as <-.
  assert (e' = e) as ->.
  { clear - Ee Ec. revert i batch Ee Ec. induction pr as [|x pr IH]; intros [|i] [|y batch] Ee Ec; try discriminate; cbn in *; [congruence|]. eapply IH; eauto. }
  unfold next_state_loss, did_transition. rewrite Z. cbn. ring.
Qed.
(** C88: the "rates" among the results are the total rate alone, whatever the number of neighbours *)
Theorem returned_rates_refuted f params state batch key training cw rw predicted state' :
  f params state key (map e_context batch) training = Ok (predicted, state') ->
  exists r, batched_loss_fn _ _ _ f params state batch key training cw rw = Ok r /\
    lr_rates _ r = map (fun rates => [total_of rates]) predicted.
Proof.
  intros E. unfold batched_loss_fn. rewrite E. cbn [bind]. eexists. split; [reflexivity|]. cbn. apply map_ext. intros x.
  unfold returned_rates, softmax. cbn. f_equal. rewrite Rplus_0_r. field. apply Rgt_not_eq, exp_pos.
Qed.
End Batches.
Print Assumptions loss_is_likelihood.
Print Assumptions loss_weights.
Print Assumptions no_transition_no_class_loss.
Print Assumptions returned_rates_refuted.

(** C88: a transition that is almost impossible costs what it would cost at the floor *)
Theorem loss_floor total c w t i p : weights_of c w -> nth_error w i = Some p -> 1 - exp (- (total * t)) <= floor ->
  next_state_loss (output total c) (Z.of_nat (S i)) true + total_rate_loss (output total c) t true = - ln (floor * p).
Proof.
  intros W Ep U. assert (Hc : nth_error c i <> None).
  { intros Hn. apply nth_error_None in Hn. apply nth_error_lt in Ep. destruct W as (_ & k' & _ & F). apply weights_map in F. subst w. rewrite map_length in Ep. lia. }
  pose proof (loss_move total c t i w Hc W p Ep) as E. unfold example_loss in E.
  replace (negb (Z.of_nat (S i) =? 0)%Z) with true in E by (symmetry; apply negb_true_iff, Z.eqb_neq; lia).
  rewrite E. unfold floor in *. rewrite Rmin_right by lra. do 3 f_equal. lra.
Qed.
Print Assumptions loss_floor.

Lemma ln_le0 x : 0 < x -> x <= 1 -> ln x <= 0.
Proof. intros H1 [H2| ->]; [|rewrite ln_1; lra]. rewrite <- ln_1. left. apply ln_increasing; auto. Qed.
(** C88: no loss is negative *)
Theorem losses_nonneg total c t k : c <> [] -> 0 <= total * t -> (k <= length c)%nat ->
  let did := negb (Z.eqb (Z.of_nat k) 0) in
  0 <= next_state_loss (output total c) (Z.of_nat k) did /\ 0 <= total_rate_loss (output total c) t did.
Proof.
  intros N T Hk did. destruct k as [|i].
  - unfold did, next_state_loss, total_rate_loss. cbn [Z.of_nat Z.eqb negb]. rewrite total_output. split; lra.
  - replace did with true by (symmetry; apply negb_true_iff, Z.eqb_neq; lia). unfold next_state_loss, total_rate_loss. rewrite total_output, choices_output.
    destruct (nth_error c i) as [s|] eqn:E; [|apply nth_error_None in E; lia]. destruct (log_softmax_nth c i s N E) as (w & Ew & El & Pw).
    rewrite (jnp_index_in _ _ _ _ El). pose proof (softmax_weights c N) as W. split.
    + apply nth_error_In in Ew. pose proof (weights_le1 _ _ W w Ew). pose proof (ln_le0 w Pw H). lra.
    + set (x := Rmin _ _). assert (x <= 1 - 1 / 1000000) by apply Rmin_r.
      assert (0 <= x). { unfold x, Rmin. destruct Rle_dec; [left; apply exp_pos|lra]. }
      pose proof (ln_le0 (1 - x) ltac:(lra) ltac:(lra)). lra.
Qed.
Print Assumptions losses_nonneg.

(** C88: a label above the number of neighbours is scored as the last one *)
Theorem loss_above total c k : c <> [] -> (length c <= k)%nat ->
  next_state_loss (output total c) (Z.of_nat k) true = next_state_loss (output total c) (Z.of_nat (length c)) true.
Proof.
  intros N Hk. unfold next_state_loss. rewrite choices_output. do 2 f_equal.
  assert (L : length (log_softmax c) = length c). { unfold log_softmax. rewrite ?map_length. reflexivity. }
  assert (0 < length c)%nat by (destruct c; [congruence|cbn; lia]).
  unfold jnp_index. rewrite L. destruct (Z.ltb_spec (Z.of_nat k - 1) 0); [lia|]. destruct (Z.ltb_spec (Z.of_nat (length c) - 1) 0); [lia|].
  rewrite Z.min_r by lia. rewrite Z.min_r by lia. reflexivity.
Qed.
Print Assumptions loss_above.

(** * The truth is the unique minimum of the expected loss *)
Lemma gibbs_term q p : 0 < q -> 0 < p -> 0 <= q * (ln q - ln p) - q + p /\ (q * (ln q - ln p) - q + p = 0 -> q = p).
Proof.
  intros Q Pp. set (y := ln (p / q)). assert (Ey : exp y = p / q) by (apply exp_ln, Rdiv_lt_0_compat; auto).
  assert (Ly : ln q - ln p = - y). { unfold y, Rdiv. rewrite ln_mult, ln_Rinv; auto; [ring|]. apply Rinv_0_lt_compat; auto. }
  rewrite Ly. assert (Ep : p = q * exp y) by (rewrite Ey; field; lra). destruct (Req_dec y 0) as [Zy|Ny].
  - rewrite Zy in *. rewrite exp_0 in Ep. split; [lra|]. intros _. lra.
  - pose proof (exp_ineq1 y Ny). split; [nra|]. intros H0. exfalso. nra.
Qed.
Lemma gibbs (l : list (R * R)) : (forall qp, In qp l -> 0 < fst qp /\ 0 < snd qp) -> rsum (map fst l) = rsum (map snd l) ->
  rsum (map (fun qp => fst qp * - ln (fst qp)) l) <= rsum (map (fun qp => fst qp * - ln (snd qp)) l) /\
  (rsum (map (fun qp => fst qp * - ln (fst qp)) l) = rsum (map (fun qp => fst qp * - ln (snd qp)) l) -> forall qp, In qp l -> fst qp = snd qp).
Proof.
  intros H E. set (g := fun qp : R * R => fst qp * (ln (fst qp) - ln (snd qp)) - fst qp + snd qp).
  assert (G : rsum (map g l) = rsum (map (fun qp => fst qp * - ln (snd qp)) l) - rsum (map (fun qp => fst qp * - ln (fst qp)) l) - rsum (map fst l) + rsum (map snd l)).
  { clear. induction l as [|x l IH]; cbn; [ring|]. unfold rsum in *. rewrite IH. unfold g. ring. }
  assert (N : forall x, In x (map g l) -> 0 <= x).
  { intros x Hx. apply in_map_iff in Hx. destruct Hx as (qp & <- & Hq). destruct (H _ Hq). apply gibbs_term; auto. }
  pose proof (rsum_nonneg _ N) as S0. split; [lra|]. intros Eq qp Hq. destruct (H _ Hq).
  apply gibbs_term; auto. apply Rle_antisym; [|apply N, (in_map g), Hq].
  apply (Rle_trans _ (rsum (map g l))); [|lra]. apply rsum_In_le; auto. apply (in_map g), Hq.
Qed.

Lemma self_terms q : forall p : list R, length q = length p ->
  map (fun pv => fst pv * snd pv) (combine q (map (fun p => - ln p) q)) = map (fun qp => fst qp * - ln (fst qp)) (combine q p).
Proof. induction q as [|x q IH]; intros [|y p] L; try discriminate; cbn; auto. f_equal. apply IH. auto. Qed.
Lemma cross_terms q : forall p : list R,
  map (fun pv => fst pv * snd pv) (combine q (map (fun p => - ln p) p)) = map (fun qp => fst qp * - ln (snd qp)) (combine q p).
Proof. induction q as [|x q IH]; intros [|y p]; cbn; auto. f_equal. apply IH. Qed.
Lemma pairs_equal {A} (q : list A) : forall p, length q = length p -> (forall qp, In qp (combine q p) -> fst qp = snd qp) -> q = p.
Proof.
  induction q as [|x q IH]; intros [|y p] L G2; try discriminate; auto.
  f_equal; [apply (G2 (x, y)); left; auto|]. apply IH; auto. intros qp Hq. apply G2. right. auto.
Qed.
Lemma scaled_equal x : x <> 0 -> forall w w' : list R, map (fun p => x * p) w = map (fun p => x * p) w' -> w = w'.
Proof.
  intros Nx. induction w as [|a w IH]; intros [|b w'] Em; try discriminate; auto. cbn in Em. injection Em as E1 E2. apply Rmult_eq_reg_l in E1; auto. f_equal; auto.
Qed.

(** C88: over what the true rates make happen in the time t, no other output
    has a smaller expected loss, and none but the same rates as small a one *)
Theorem truth_minimises_loss total c w t total' c' w' : weights_of c w -> weights_of c' w' -> length c = length c' -> 0 < t ->
  floor <= 1 - exp (- (total * t)) -> floor <= 1 - exp (- (total' * t)) ->
  let loss := fun rates k => next_state_loss rates (Z.of_nat k) (negb (Z.eqb (Z.of_nat k) 0)) + total_rate_loss rates t (negb (Z.eqb (Z.of_nat k) 0)) in
  let expected := fun rates => expectation (outcomes total w t) (map (loss rates) (seq 0 (S (length c)))) in
  expected (output total c) <= expected (output total' c') /\
  (expected (output total c) = expected (output total' c') -> total' = total /\ w' = w).
Proof.
  intros W W' Lc T U U' loss expected. unfold floor in *.
  set (q := outcomes total w t). set (p := outcomes total' w' t).
  assert (Len : forall c w, weights_of c w -> length w = length c).
  { intros ? ? (_ & k & _ & F). apply weights_map in F. subst. apply map_length. }
  assert (Lq : length q = S (length c)) by (unfold q; cbn; rewrite map_length, (Len _ _ W); auto).
  assert (Lp : length p = S (length c)) by (unfold p; cbn; rewrite map_length, (Len _ _ W'), Lc; auto).
  assert (Pos : forall total c w, weights_of c w -> 1 / 1000000 <= 1 - exp (- (total * t)) -> forall x, In x (outcomes total w t) -> 0 < x).
  { intros T0 c0 w0 W0 U0 x [<-|Hx]; [apply exp_pos|]. apply in_map_iff in Hx. destruct Hx as (y & <- & Hy). pose proof (weights_pos _ _ W0 y Hy). nra. }
  assert (Sum : forall total c w, weights_of c w -> 1 / 1000000 <= 1 - exp (- (total * t)) -> rsum (outcomes total w t) = 1).
  { intros T0 c0 w0 W0 U0. unfold outcomes. cbn. fold (rsum (map (fun p => (1 - exp (- (T0 * t))) * p) w0)).
    rewrite (rsum_scale (fun p => p)). rewrite map_id, (proj1 W0). ring. }
  assert (Lo : forall total c w, weights_of c w -> 1 / 1000000 <= 1 - exp (- (total * t)) ->
             map (loss (output total c)) (seq 0 (S (length c))) = map (fun p => - ln p) (outcomes total w t)).
  { intros T0 c0 w0 W0 U0. apply nth_error_ext'. intros k. rewrite !nth_error_map.
    destruct (nth_error (outcomes T0 w0 t) k) as [x|] eqn:Ex.
    - assert (Hk : (k < S (length c0))%nat). { apply nth_error_lt in Ex. cbn in Ex. rewrite map_length, (Len _ _ W0) in Ex. auto. }
      rewrite (nth_error_nth' (seq 0 (S (length c0))) 0%nat) by (rewrite seq_length; auto). rewrite seq_nth by auto. cbn [option_map Nat.add]. f_equal.
      apply (example_likelihood (output T0 c0) (mkexample (Z.of_nat k) t []) x). exists T0, c0, w0, k. unfold floor. repeat (split; [solve [auto]|]). right. auto.
    - assert (Hk : (S (length c0) <= k)%nat). { apply nth_error_None in Ex. cbn in Ex. rewrite map_length, (Len _ _ W0) in Ex. lia. }
      rewrite (proj2 (nth_error_None (seq 0 (S (length c0))) k)); auto. rewrite seq_length. auto. }
  unfold expected. rewrite (Lo total c w W U), Lc, (Lo total' c' w' W' U'). fold q p.
  unfold expectation.
  rewrite (self_terms q p) by congruence. rewrite cross_terms.
  destruct (gibbs (combine q p)) as [G1 G2].
  - intros [a b] Hab. split; [apply (Pos _ _ _ W U); apply in_combine_l in Hab; auto|apply (Pos _ _ _ W' U'); apply in_combine_r in Hab; auto].
  - rewrite map_fst_combine, map_snd_combine by congruence. unfold q, p. rewrite (Sum _ _ _ W U), (Sum _ _ _ W' U'). auto.
  - split; auto. intros Eq. specialize (G2 Eq).
    assert (Same : q = p) by (apply pairs_equal; [congruence|auto]).
    unfold q, p, outcomes in Same. injection Same as Ee Em. split.
    + apply exp_inv in Ee. assert (total * t = total' * t) by lra. apply Rmult_eq_reg_r in H; lra.
    + rewrite <- Ee in Em. apply (scaled_equal (1 - exp (- (total * t)))); [lra|auto].
Qed.
Print Assumptions truth_minimises_loss.

(** three neighbours, one of them favoured, and a batch of a transition and of none *)
Example likelihood_nonvacuous :
  let rates := output 2 [0; 0; ln 2] in
  weights_of [0; 0; ln 2] [1 / 4; 1 / 4; 1 / 2] /\
  likelihood rates (mkexample 3 1 []) ((1 - exp (- (2 * 1))) * (1 / 2)) /\ likelihood rates (mkexample 0 5 []) (exp (- (2 * 5))).
Proof.
  assert (W : weights_of [0; 0; ln 2] [1 / 4; 1 / 4; 1 / 2]).
  { split; [cbn; lra|]. exists (1 / 4). split; [lra|]. repeat constructor; rewrite ?exp_0, ?exp_ln; lra. }
  split; auto. split.
  - exists 2, [0; 0; ln 2], [1 / 4; 1 / 4; 1 / 2], 3%nat. repeat (split; [reflexivity || auto|]). right. cbn [e_dt]. unfold floor.
    assert (exp (- (2 * 1)) <= 1 / 3); [|lra]. replace (- (2 * 1)) with (- (2)) by ring. rewrite exp_Ropp.
    pose proof (exp_ineq1 2 ltac:(lra)). apply Rle_trans with (/ 3); [|lra]. apply Rinv_le_contravar; lra.
  - exists 2, [0; 0; ln 2], [1 / 4; 1 / 4; 1 / 2], 0%nat. repeat (split; [reflexivity || auto|]). left. auto.
Qed.
