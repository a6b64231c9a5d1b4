(** Facts about softmax, losses and averages *)
From Coq Require Import Reals ZArith List Bool Arith Lia Lra.
From Verif Require Import Base.Prelude Model.DataUtils Model.LearnRates Spec.WaitingTimes Proofs.BaseFacts Proofs.ClumpFacts.
Import ListNotations.
Open Scope R_scope.

Lemma rsum_scale {A} (f : A -> R) k l : rsum (map (fun x => k * f x) l) = k * rsum (map f l).
Proof. induction l as [|x l IH]; cbn; [ring|]. unfold rsum in *. cbn. rewrite IH. ring. Qed.
Lemma rsum_exp_pos l : l <> [] -> 0 < rsum (map exp l).
Proof.
  destruct l as [|x l]; [congruence|]. intros _. cbn. pose proof (exp_pos x).
  assert (0 <= rsum (map exp l)). { apply rsum_nonneg. intros y Hy. apply in_map_iff in Hy. destruct Hy as (z & <- & _). left. apply exp_pos. }
  unfold rsum in *. lra.
Qed.
Lemma total_output total c : total_of (output total c) = total.
Proof. unfold total_of, output. apply last_last. Qed.
Lemma choices_output total c : choices_of (output total c) = c.
Proof. unfold choices_of, output. apply removelast_last. Qed.

Lemma softmax_weights c : c <> [] -> weights_of c (softmax c).
Proof.
  intros N. pose proof (rsum_exp_pos c N) as Z. unfold softmax. set (z := rsum (map exp c)) in *. split.
  - rewrite (map_ext _ (fun x => / z * exp x)) by (intros; unfold Rdiv; ring). rewrite rsum_scale. fold z. field. lra.
  - exists (/ z). split; [apply Rinv_0_lt_compat; auto|]. clearbody z. clear. induction c; cbn; constructor; auto. unfold Rdiv. ring.
Qed.
(** the weights are determined *)
Lemma weights_map c w k : Forall2 (fun s p => p = k * exp s) c w -> w = map (fun s => k * exp s) c.
Proof. induction 1; cbn; congruence. Qed.
Lemma weights_unique c w : weights_of c w -> c <> [] /\ w = softmax c.
Proof.
  intros (S1 & k & K & F). apply weights_map in F. subst w.
  assert (N : c <> []) by (intros ->; cbn in S1; lra). split; auto.
  rewrite rsum_scale in S1. pose proof (rsum_exp_pos c N). unfold softmax. apply map_ext. intros s.
  replace k with (/ rsum (map exp c)); [unfold Rdiv; ring|]. field_simplify_eq; lra.
Qed.
Lemma weights_pos c w : weights_of c w -> forall x, In x w -> 0 < x.
Proof.
  intros (_ & k & K & F) x Hx. apply weights_map in F. subst. apply in_map_iff in Hx. destruct Hx as (s & <- & _).
  apply Rmult_lt_0_compat; auto. apply exp_pos.
Qed.
Lemma rsum_In_le l x : (forall y, In y l -> 0 <= y) -> In x l -> x <= rsum l.
Proof.
  intros H. induction l as [|y l IH]; intros Hx; [destruct Hx|]. cbn. unfold rsum in *.
  assert (0 <= fold_right Rplus 0 l) by (apply (rsum_nonneg l); intros; apply H; right; auto).
  pose proof (H y (or_introl eq_refl)). destruct Hx as [->|Hx]; [lra|]. specialize (IH (fun z Hz => H z (or_intror Hz)) Hx). lra.
Qed.
Lemma weights_le1 c w : weights_of c w -> forall x, In x w -> x <= 1.
Proof. intros W x Hx. rewrite <- (proj1 W). apply rsum_In_le; auto. intros y Hy. left. eapply weights_pos; eauto. Qed.

Lemma log_softmax_nth c i s : c <> [] -> nth_error c i = Some s ->
  exists w, nth_error (softmax c) i = Some w /\ nth_error (log_softmax c) i = Some (ln w) /\ 0 < w.
Proof.
  intros N E. pose proof (rsum_exp_pos c N) as Z. exists (exp s / rsum (map exp c)). unfold softmax, log_softmax. rewrite !nth_error_map, E. cbn.
  split; auto. split; [|apply Rdiv_lt_0_compat; auto; apply exp_pos].
  unfold Rdiv. rewrite ln_mult, ln_exp, ln_Rinv; auto; [apply exp_pos|apply Rinv_0_lt_compat; auto].
Qed.
Lemma jnp_index_in {A} (l : list A) i x d : nth_error l i = Some x -> jnp_index l (Z.of_nat (S i) - 1) d = x.
Proof.
  intros E. pose proof (nth_error_lt _ _ _ E). unfold jnp_index. replace (Z.of_nat (S i) - 1)%Z with (Z.of_nat i) by lia.
  destruct (Z.ltb_spec (Z.of_nat i) 0); [lia|]. rewrite Z.min_l, Z.max_r, Nat2Z.id by lia. apply nth_error_nth. auto.
Qed.

(** the loss of one example *)
Definition example_loss (rates : list R) (k : nat) (t : R) : R :=
  let did := negb (Z.eqb (Z.of_nat k) 0) in
  next_state_loss rates (Z.of_nat k) did + total_rate_loss rates t did.

Lemma loss_stay total c t : example_loss (output total c) 0 t = total * t.
Proof.
  unfold example_loss, next_state_loss, total_rate_loss. cbn [Z.of_nat Z.eqb negb]. rewrite total_output. ring.
Qed.
Lemma loss_move total c t i w : nth_error c i <> None -> weights_of c w -> forall p, nth_error w i = Some p ->
  example_loss (output total c) (S i) t = - ln ((1 - Rmin (exp (- (total * t))) (1 - 1 / 1000000)) * p).
Proof.
  intros Ni W p Ep. destruct (weights_unique _ _ W) as [N ->]. unfold example_loss, next_state_loss, total_rate_loss.
  replace (negb (Z.of_nat (S i) =? 0)%Z) with true by (symmetry; apply negb_true_iff, Z.eqb_neq; lia).
  rewrite total_output, choices_output. destruct (nth_error c i) as [s|] eqn:E; [|congruence].
  destruct (log_softmax_nth c i s N E) as (p' & Ep' & El & Pp). rewrite Ep in Ep'. injection Ep' as <-.
  rewrite (jnp_index_in _ _ _ _ El). replace (- total * t) with (- (total * t)) by ring.
  set (x := Rmin _ _). assert (x <= 1 - 1 / 1000000) by apply Rmin_r. rewrite ln_mult by lra. ring.
Qed.
