(** C113: learning rates and the length of epochs *)
From Coq Require Import Reals ZArith String List Bool Arith Lia Lra.
From Verif Require Import Base.Prelude Base.Rounding Model.LearningSteps Model.Schedule Proofs.BaseFacts Spec.Schedule.
Import ListNotations.
Open Scope R_scope.

Lemma fifth_small n : (0 < n)%nat -> (2 * (n / 5) < n)%nat.
Proof. intros. pose proof (Nat.div_mod n 5 ltac:(lia)). lia. Qed.
Lemma cosine_range x : 0 <= 1 / 2 * (1 + cos x) <= 1.
Proof. pose proof (COS_bound x). lra. Qed.

(** C113: with at least an epoch and a batch in it, the rate rises in the first fifth of an epoch and then falls; it
    has reached zero a fifth of an epoch before the end *)
Theorem learning_rate_shape peak steps batch epochs n : 0 < peak -> (0 < batch)%nat -> n = (steps / batch)%nat -> (0 < n)%nat -> (0 < epochs)%nat ->
  exists rate, learning_rate peak steps batch epochs = Ok rate /\ warms_up_and_decays rate peak (n / 5) (epochs * n - n / 5).
Proof.
  intros Hp Hb En Hn He. unfold learning_rate, batches_per_epoch. destruct batch as [|batch]; [lia|]. rewrite <- En. unfold warmup_cosine_decay_schedule. pose proof (fifth_small n Hn) as F. set (w := (n / 5)%nat) in *.
  assert (Hd : (2 * w < epochs * n)%nat) by nia. destruct (Z.leb_spec (Z.of_nat epochs * Z.of_nat n - Z.of_nat w - Z.of_nat w) 0); [lia|]. eexists. split; [reflexivity|].
  set (d := Z.to_nat _). assert (Ed : d = (epochs * n - w - w)%nat) by (unfold d; lia). clearbody d. assert (Pd : 0 < INR d) by (apply lt_0_INR; lia). pose proof PI_RGT_0 as Ppi.
  assert (Lin : forall t, (t <= w)%nat -> (0 < w)%nat -> linear_schedule 0 peak w t = peak * (INR t / INR w)).
  { intros t Ht Hw. unfold linear_schedule. destruct w as [|w0]; [lia|]. rewrite Nat.min_l by lia. assert (0 < INR (S w0)) by (apply lt_0_INR; lia). field. lra. }
  assert (Cv : forall t, cosine_decay_schedule peak 0 d t = peak * (1 / 2 * (1 + cos (PI * INR (Nat.min t d) / INR d)))) by (intros t; unfold cosine_decay_schedule; ring).
  assert (C0 : cosine_decay_schedule peak 0 d 0 = peak). { rewrite Cv. replace (PI * INR (Nat.min 0 d) / INR d) with 0 by (cbn; field; lra). rewrite cos_0. lra. }
  assert (Ang : forall t, (t <= d)%nat -> 0 <= PI * INR t / INR d <= PI).
  { intros t Ht. apply le_INR in Ht. pose proof (pos_INR t). split; [apply Rmult_le_pos; [nra|left; apply Rinv_0_lt_compat; auto]|]. apply (Rmult_le_reg_r (INR d)); [auto|]. unfold Rdiv. rewrite Rmult_assoc, Rinv_l by lra. nra. }
  split.
  - intros t. destruct (Nat.ltb_spec t w) as [Hl|Hg].
    + rewrite Lin by lia. assert (0 < INR w) by (apply lt_0_INR; lia). assert (0 <= INR t / INR w <= 1); [|nra]. pose proof (pos_INR t). assert (INR t <= INR w) by (apply le_INR; lia). split; [apply Rmult_le_pos; [lra|left; apply Rinv_0_lt_compat; auto]|]. apply (Rmult_le_reg_r (INR w)); [auto|]. unfold Rdiv. rewrite Rmult_assoc, Rinv_l by lra. lra.
    + rewrite Cv. pose proof (cosine_range (PI * INR (Nat.min (t - w) d) / INR d)). nra.
  - intros t u Htu. assert (Hw : 0 < INR w) by (apply lt_0_INR; lia). destruct (Nat.ltb_spec t w); [|lia]. rewrite Lin by lia.
    assert (INR t / INR w < 1). { apply (Rmult_lt_reg_r (INR w)); [auto|]. unfold Rdiv. rewrite Rmult_assoc, Rinv_l by lra. assert (INR t < INR w) by (apply lt_INR; lia). lra. }
    destruct (Nat.ltb_spec u w).
    + rewrite Lin by lia. apply Rmult_lt_compat_l; auto. unfold Rdiv. apply Rmult_lt_compat_r; [apply Rinv_0_lt_compat; auto|apply lt_INR; lia].
    + replace (u - w)%nat with 0%nat by lia. rewrite C0. nra.
  - intros Hw. destruct (Nat.ltb_spec 0 w); [|lia]. rewrite Lin by lia. cbn [INR]. unfold Rdiv. ring.
  - destruct (Nat.ltb_spec w w); [lia|]. rewrite Nat.sub_diag. exact C0.
  - intros t u Ht Hu. destruct (Nat.ltb_spec t w); [lia|]. destruct (Nat.ltb_spec u w); [lia|]. rewrite !Cv, !Nat.min_l by lia.
    assert (cos (PI * INR (u - w) / INR d) < cos (PI * INR (t - w) / INR d)); [|nra].
    apply cos_decreasing_1; try (apply Ang; lia). unfold Rdiv. apply Rmult_lt_compat_r; [apply Rinv_0_lt_compat; auto|]. apply Rmult_lt_compat_l; auto. apply lt_INR. lia.
  - intros t Ht. destruct (Nat.ltb_spec t w); [nia|]. rewrite Cv, Nat.min_r by lia. replace (PI * INR d / INR d) with PI by (field; lra). rewrite cos_PI. lra.
Qed.
(** C113: otherwise there is no training: an error *)
Theorem learning_rate_error peak steps batch epochs : 
  learning_rate peak steps 0 epochs = Raise ZeroDivisionError /\
  ((0 < batch)%nat -> (steps < batch)%nat \/ epochs = 0%nat -> learning_rate peak steps batch epochs = Raise ValueError).
Proof.
  split; [reflexivity|]. intros Hb H. unfold learning_rate, batches_per_epoch, warmup_cosine_decay_schedule. destruct batch as [|b]; [lia|].
  assert (E : (Z.of_nat epochs * Z.of_nat (steps / S b) = 0)%Z) by (destruct H as [H| ->]; [rewrite (Nat.div_small steps (S b)) by lia; lia|lia]). rewrite E. destruct (Z.leb_spec (0 - Z.of_nat (steps / S b / 5) - Z.of_nat (steps / S b / 5)) 0); [reflexivity|lia].
Qed.

(** C113: when the rate is zero: in the first step, if there is a warm-up, and from a fifth of an epoch before the end *)
Theorem idle_steps peak steps batch epochs n rate t : 0 < peak -> (0 < batch)%nat -> n = (steps / batch)%nat -> learning_rate peak steps batch epochs = Ok rate ->
  (rate t = 0 <-> (t = 0%nat /\ (5 <= n)%nat) \/ (epochs * n - n / 5 <= t)%nat).
Proof.
  intros Hp Hb En H.
  assert (Pn : (0 < n)%nat /\ (0 < epochs)%nat).
  { destruct (Nat.eq_0_gt_0_cases n) as [Z|]; [|destruct (Nat.eq_0_gt_0_cases epochs) as [Z|]; [|auto]]; exfalso; rewrite (proj2 (learning_rate_error peak steps batch epochs)) in H; try discriminate; auto. subst n. left. apply Nat.div_small_iff in Z; lia. }
  destruct Pn as [Hn He]. destruct (learning_rate_shape peak steps batch epochs n Hp Hb En Hn He) as (rate' & E & W). rewrite H in E. injection E as <-. pose proof (fifth_small n Hn) as F.
  assert (F5 : (0 < n / 5)%nat <-> (5 <= n)%nat) by (pose proof (Nat.div_mod n 5 ltac:(lia)); pose proof (Nat.mod_upper_bound n 5 ltac:(lia)); lia).
  assert (Hd : (n / 5 < epochs * n - n / 5)%nat) by nia. split.
  - intros Z. destruct (Nat.le_gt_cases (epochs * n - n / 5) t) as [|Hl]; [auto|]. left. destruct (Nat.le_gt_cases (n / 5) t) as [Hg|Ht].
    + exfalso. destruct (Nat.eq_dec t (epochs * n - n / 5 - 1)) as [E|N].
      * pose proof (wd_falls _ _ _ _ W t (S t) ltac:(lia) ltac:(lia)). pose proof (wd_range _ _ _ _ W (S t)). lra.
      * pose proof (wd_falls _ _ _ _ W t (S t) ltac:(lia) ltac:(lia)). pose proof (wd_range _ _ _ _ W (S t)). lra.
    + destruct t as [|t]; [split; [auto|lia]|]. exfalso. pose proof (wd_rises _ _ _ _ W t (S t) ltac:(lia)). pose proof (wd_range _ _ _ _ W t). lra.
  - intros [[-> H5]|Hl]; [apply (wd_start _ _ _ _ W); apply F5; auto|apply (wd_bottom _ _ _ _ W); auto].
Qed.

(** * training *)
Section Training.
Context {Grads Moments Batch : Type}.
Variable loss : list R -> Batch -> R.
Variable outputs : list R -> Batch -> list (string * R).
Variable gradient : (list R -> R) -> list R -> Grads.
Variable direction : Grads -> Moments -> list R -> list R * Moments.
Notation state := (@train_state (list R) (nat * Moments)).

Lemma step_idle rate (s : state) b (direction_length : forall g m p, length (fst (direction g m p)) = length p) : rate (fst (ts_opt s)) = 0 -> ts_params (train_step loss outputs gradient (adamw direction rate) s b) = ts_params s.
Proof.
  intros Z. unfold train_step, apply_gradients, adamw. destruct (direction _ _ _) as [d m] eqn:E. cbn [ts_params]. rewrite Z. pose proof (direction_length (gradient (fun p => loss p b) (ts_params s)) (snd (ts_opt s)) (ts_params s)) as L. rewrite E in L. cbn [fst] in L.
  clear E. revert d L. generalize (ts_params s). intros l. induction l as [|x l IH]; intros [|u d] L; try discriminate; [reflexivity|]. cbn. f_equal; [ring|]. apply IH. injection L. auto.
Qed.
Lemma step_count rate (s : state) b : fst (ts_opt (train_step loss outputs gradient (adamw direction rate) s b)) = S (fst (ts_opt s)).
Proof. unfold train_step, apply_gradients, adamw. destruct (direction _ _ _). reflexivity. Qed.
(** C113: false that all of the training changes the network: the last fifth of an epoch does not, whatever the
    data and the gradients *)
Theorem last_batches_idle_refuted peak steps batch epochs n rate (s : state) used unused : (forall g m p, length (fst (direction g m p)) = length p) -> 0 < peak -> (0 < batch)%nat -> n = (steps / batch)%nat ->
  learning_rate peak steps batch epochs = Ok rate -> fst (ts_opt s) = 0%nat -> length (used ++ unused) = (epochs * n)%nat -> (length unused <= n / 5)%nat ->
  ts_params (fold_left (train_step loss outputs gradient (adamw direction rate)) (used ++ unused) s) =
  ts_params (fold_left (train_step loss outputs gradient (adamw direction rate)) used s).
Proof.
  intros Hd Hp Hb En Hr Z0 L Lu. rewrite fold_left_app. set (s1 := fold_left _ used s).
  assert (C1 : fst (ts_opt s1) = length used).
  { unfold s1. clear -Z0. assert (G : forall l (t : state), fst (ts_opt (fold_left (train_step loss outputs gradient (adamw direction rate)) l t)) = (fst (ts_opt t) + length l)%nat).
    { induction l as [|b l IH]; intros t; cbn [fold_left length]; [lia|]. rewrite IH, step_count. lia. } rewrite G, Z0. reflexivity. }
  rewrite app_length in L. assert (Hc : (epochs * n - n / 5 <= fst (ts_opt s1))%nat) by lia. clearbody s1. clear C1 L Lu. revert s1 Hc. induction unused as [|b l IH]; intros t Hc; [reflexivity|].
  cbn [fold_left]. rewrite IH by (rewrite step_count; lia). apply step_idle; [exact Hd|]. apply (idle_steps peak steps batch epochs n rate); auto.
Qed.
End Training.

(** C113: with the size of the batches of the data, an epoch has as many examples as configured, less than a batch
    missing; false for other sizes, which the detector and the graph network do not pass on *)
Theorem examples_seen steps batch data : (0 < batch)%nat -> 
  (examples_per_epoch steps batch batch <= steps < examples_per_epoch steps batch batch + batch)%nat /\
  (examples_per_epoch steps batch data * batch = examples_per_epoch steps batch batch * data)%nat.
Proof.
  intros H. unfold examples_per_epoch, batches_per_epoch. pose proof (Nat.div_mod steps batch ltac:(lia)). pose proof (Nat.mod_upper_bound steps batch ltac:(lia)). split; [|ring]. nia.
Qed.
(** C113: so by default the graph network is trained on an eighth of the examples *)
Theorem graph_examples_refuted steps : (steps - 128 < 8 * examples_per_epoch steps 128 graph_data_batch <= steps \/ steps < 128)%nat /\ examples_per_epoch steps 128 detection_data_batch = examples_per_epoch steps 128 128.
Proof.
  split; [|reflexivity]. destruct (examples_seen steps 128 graph_data_batch ltac:(lia)) as [A B]. unfold graph_data_batch in *. lia.
Qed.
Print Assumptions learning_rate_shape.
Print Assumptions learning_rate_error.
Print Assumptions idle_steps.
Print Assumptions last_batches_idle_refuted.
Print Assumptions examples_seen.
Print Assumptions graph_examples_refuted.

(** twenty batches in two epochs of ten: the rate is zero in the first and the last two steps *)
Example schedule_nonvacuous : exists rate, learning_rate 1 100 10 2 = Ok rate /\ rate 0%nat = 0 /\ rate 1%nat = 1 / 2 /\ rate 2%nat = 1 /\ 0 < rate 17%nat /\ rate 18%nat = 0 /\
  examples_per_epoch 1000 128 graph_data_batch = 112%nat.
Proof.
  destruct (learning_rate_shape 1 100 10 2 10) as (rate & E & W); try lra; try lia; [reflexivity|]. change (10 / 5)%nat with 2%nat in W. change (2 * 10 - 2)%nat with 18%nat in W. exists rate. split; [exact E|]. split; [apply (wd_start _ _ _ _ W); lia|].
  split; [|split; [apply (wd_top _ _ _ _ W)|split; [|split; [apply (wd_bottom _ _ _ _ W); lia|]]]].
  - unfold learning_rate, warmup_cosine_decay_schedule, batches_per_epoch in E. change (100 / 10)%nat with 10%nat in E. change (10 / 5)%nat with 2%nat in E. cbn -[linear_schedule cosine_decay_schedule] in E. injection E as <-. cbn. field.
  - pose proof (wd_falls _ _ _ _ W 17%nat 18%nat ltac:(lia) ltac:(lia)). pose proof (wd_bottom _ _ _ _ W 18%nat ltac:(lia)). lra.
  - reflexivity.
Qed.
