(** C90: training of one model *)
From Coq Require Import Reals ZArith List Bool Arith Lia Lra Permutation.
From Verif Require Import Base.Prelude Model.DataUtils Model.MicroscopeUtils Model.LearnRates Spec.WaitingTimes Spec.Networks Spec.Splitting Spec.Training
  Proofs.BaseFacts Proofs.LossFacts Proofs.MaterialFacts Props.AugmentProps Props.SplitProps Props.LossProps.
Import ListNotations.
Open Scope R_scope.

Lemma last_shift {A} (ss : list A) : forall x s, last (x :: ss) s = last ss x.
Proof. induction ss as [|y ss IH]; intros x s; auto. change (last (x :: y :: ss) s) with (last (y :: ss) s). rewrite !IH. auto. Qed.
Lemma scan_trace {A B} (g : A -> B -> res A) l : forall a a', scan_res g a l = Ok a' <-> exists ss, trace (fun s x s' => g s x = Ok s') a l ss /\ a' = last ss a.
Proof.
  induction l as [|x l IH]; intros a a'; cbn.
  - split; [intros E; injection E as <-; exists []; split; [constructor|auto]|]. intros (ss & T & ->). inversion T. auto.
  - split.
    + destruct (g a x) as [b|e|] eqn:E; cbn; try discriminate. intros H. apply IH in H. destruct H as (ss & T & ->). exists (b :: ss). split; [constructor; auto|]. symmetry. apply last_shift.
    + intros (ss & T & ->). inversion T as [|s0 x0 b xs0 ss0 E T']; subst. rewrite E. cbn. apply IH. exists ss0. split; auto. apply last_shift.
Qed.

Lemma concat_chunks {A} (b : nat) k : forall (l : list A), (k * b <= length l)%nat ->
  concat (map (fun i => firstn b (skipn (i * b) l)) (seq 0 k)) = firstn (k * b) l.
Proof.
  induction k as [|k IH]; intros l H; auto. rewrite seq_S, map_app, concat_app, IH by lia. cbn [map concat Nat.add]. rewrite app_nil_r.
  replace (S k * b)%nat with (k * b + b)%nat by lia.
  rewrite <- (firstn_skipn (k * b) l) at 3. rewrite firstn_app. rewrite firstn_firstn, Nat.min_r by lia. rewrite firstn_length, Nat.min_l by lia. f_equal. f_equal. lia.
Qed.
Lemma batch_indices_batching l b n : (0 < b)%nat -> Permutation l (seq 0 n) -> batching n b (batch_indices l b).
Proof.
  intros Hb Hp. assert (Ln : length l = n) by (rewrite (Permutation_length Hp), seq_length; auto).
  unfold batch_indices, batching. rewrite Ln.
  pose proof (Nat.div_mod n b ltac:(lia)) as Dm. pose proof (Nat.mod_upper_bound n b ltac:(lia)) as Mb.
  rewrite concat_chunks by lia. split; [|split; [|split]].
  - intros x Hx. apply in_map_iff in Hx. destruct Hx as (i & <- & Hi). apply in_seq in Hi. rewrite firstn_length, skipn_length.
    assert ((i + 1) * b <= n / b * b)%nat by (apply Nat.mul_le_mono_r; lia). lia.
  - assert (Nl : NoDup l) by (eapply Permutation_NoDup; [symmetry; eauto|apply seq_NoDup]). rewrite <- (firstn_skipn (n / b * b) l) in Nl. clear - Nl. revert Nl. generalize (firstn (n / b * b) l) (skipn (n / b * b) l).
    intros a c Nl. induction a as [|x a IH]; constructor; inversion Nl; subst; auto. intros Hx. apply H1. apply in_or_app. auto.
  - intros i Hi. assert (In i l) by (rewrite <- (firstn_skipn (n / b * b) l); apply in_or_app; auto). apply (Permutation_in _ Hp) in H. apply in_seq in H. lia.
  - rewrite firstn_length. lia.
Qed.

Lemma chunks_unique {A} b (pl1 : list (list A)) : forall pl2 r1 r2, (0 < b)%nat -> (forall l, In l pl1 -> length l = b) -> (forall l, In l pl2 -> length l = b) ->
  concat pl1 ++ r1 = concat pl2 ++ r2 -> (length r1 < b)%nat -> (length r2 < b)%nat -> pl1 = pl2.
Proof.
  induction pl1 as [|p pl1 IH]; intros pl2 r1 r2 Hb H1 H2 E L1 L2; destruct pl2 as [|q pl2]; auto.
  - exfalso. apply (f_equal (@length A)) in E. cbn in E. rewrite !app_length, (H2 q (or_introl eq_refl)) in E. lia.
  - exfalso. apply (f_equal (@length A)) in E. cbn in E. rewrite !app_length, (H1 p (or_introl eq_refl)) in E. lia.
  - cbn in E. rewrite <- !app_assoc in E. pose proof (H1 p (or_introl eq_refl)) as Lp. pose proof (H2 q (or_introl eq_refl)) as Lq.
    assert (p = q).
    { apply (f_equal (firstn b)) in E. rewrite !firstn_app, Lp, Lq, Nat.sub_diag in E. cbn in E. rewrite !app_nil_r in E. rewrite <- Lp in E at 1. rewrite firstn_all in E. rewrite <- Lq in E. rewrite firstn_all in E. auto. }
    subst q. f_equal. apply app_inv_head in E. apply (IH pl2 r1 r2); auto; intros; [apply H1|apply H2]; right; auto.
Qed.

Section Training.
Context {P ST OS K : Type}.
Variable split : K -> nat -> list K.
Variable optimize : (P -> res R) -> P -> OS -> res (P * OS).
Variable permutation : K -> nat -> list nat.
Hypothesis permutes : forall k n, Permutation (permutation k n) (seq 0 n).
Hypothesis splits : forall k n, length (split k n) = n.
Variable f : apply_type P ST K.

(** C90: a step moves the parameters by the weighted loss of its batch alone *)
Theorem step_optimises key cw rw s batch s' : train_step P ST OS K optimize f key cw rw s batch = Ok s' ->
  exists loss, optimize loss (ts_params _ _ _ s) (ts_opt _ _ _ s) = Ok (ts_params _ _ _ s', ts_opt _ _ _ s') /\
    (forall p v, loss p = Ok v <-> exists r, batched_loss_fn _ _ _ f p (ts_state _ _ _ s) batch key true cw rw = Ok r /\
       v = cw * mean (lr_class_losses _ r) + rw * mean (lr_rate_losses _ r)) /\
    exists out, f (ts_params _ _ _ s) (ts_state _ _ _ s) key (map e_context batch) true = Ok (out, ts_state _ _ _ s').
Proof.
  unfold train_step. intros H. destruct (batched_loss_fn _ _ _ f (ts_params _ _ _ s) (ts_state _ _ _ s) batch key true cw rw) as [r|e|] eqn:Er; cbn in H; try discriminate.
  set (loss := fun p => fmap_res (lr_loss ST) (batched_loss_fn _ _ _ f p (ts_state _ _ _ s) batch key true cw rw)) in *.
  destruct (optimize loss (ts_params _ _ _ s) (ts_opt _ _ _ s)) as [[p' o']|e|] eqn:Eo; cbn in H; try discriminate. injection H as <-. cbn.
  exists loss. split; [auto|]. split.
  - intros p v. unfold loss. split.
    + destruct (batched_loss_fn _ _ _ f p (ts_state _ _ _ s) batch key true cw rw) as [r'|e|] eqn:Er'; cbn; try discriminate. intros E. injection E as <-. exists r'. split; auto. eapply loss_weights; eauto.
    + intros (r' & E & ->). rewrite E. cbn. f_equal. eapply loss_weights; eauto.
  - unfold batched_loss_fn in Er. destruct (f (ts_params _ _ _ s) (ts_state _ _ _ s) key (map e_context batch) true) as [[out st]|e|]; cbn in Er; try discriminate. injection Er as <-. cbn. eauto.
Qed.

(** C90: an epoch is a run over full, disjoint batches of the data *)
Theorem epoch_batches b cw rw s key data s' key' :
  train_epoch P ST OS K split optimize permutation f b cw rw s key data = Ok (s', key') <->
  (0 < b <= length data)%nat /\ key' = nth 0 (split key 2) key /\
  exists places rest batches ss, permutation (nth 1 (split key 2) key) (length data) = concat places ++ rest /\
    batching (length data) b places /\ Forall2 (rows_of data) places batches /\
    trace (fun s batch s' => train_step P ST OS K optimize f key' cw rw s batch = Ok s') s batches ss /\ s' = last ss s.
Proof.
  unfold train_epoch. unfold key_at. set (k0 := nth 0 (split key 2) key). set (k1 := nth 1 (split key 2) key). destruct b as [|b0].
  { split; [discriminate|]. intros [? _]. lia. }
  set (b := S b0). pose proof (batch_indices_batching _ b _ (Nat.lt_0_succ b0) (permutes k1 (length data))) as B.
  set (places := batch_indices (permutation k1 (length data)) b) in *.
  assert (Er0 : concat places = firstn (length data / b * b) (permutation k1 (length data))).
  { unfold places, batch_indices. rewrite (Permutation_length (permutes _ _)), seq_length. apply concat_chunks.
    rewrite (Permutation_length (permutes _ _)), seq_length. rewrite Nat.mul_comm. apply Nat.mul_div_le. discriminate. }
  assert (Q : exists batches, map_res (rows_at data) places = Ok batches /\ Forall2 (rows_of data) places batches).
  { clear Er0. destruct B as (_ & _ & B & _). clearbody places. induction places as [|p ps IH]; [exists []; split; auto|].
    destruct IH as (bs & E & Q); [intros i Hi; apply B; cbn; apply in_or_app; auto|].
    destruct (rows_at_rows data p) as (l & El & Rl); [apply Forall_forall; intros i Hi; apply B; cbn; apply in_or_app; auto|].
    exists (l :: bs). split; [cbn; rewrite El; cbn; rewrite E; auto|constructor; auto]. }
  destruct Q as (batches & Eb & Fb). split.
  - intros H. destruct places as [|p ps] eqn:Ep; [discriminate|]. rewrite <- Ep in H. rewrite Ep, Eb in H. cbn [bind] in H.
    destruct (scan_res (train_step P ST OS K optimize f k0 cw rw) s batches) as [s1|e|] eqn:Es; cbn [bind] in H; try discriminate. injection H as <- <-.
    apply scan_trace in Es. destruct Es as (ss & T & ->). split.
    + destruct B as (Lb & _ & _ & B). specialize (Lb p (or_introl eq_refl)). cbn [concat] in B. rewrite app_length in B. lia.
    + split; auto. exists (p :: ps), (skipn (length data / b * b) (permutation k1 (length data))), batches, ss. split; [|auto]. rewrite Er0. symmetry. apply firstn_skipn.
  - intros (Hb & -> & places' & rest & batches' & ss & Er & B' & F' & T & ->).
    assert (places' = places).
    { assert (Lp : length (permutation k1 (length data)) = length data) by (rewrite (Permutation_length (permutes _ _)), seq_length; auto).
      assert (Lr : (length rest < b)%nat) by (apply (f_equal (@length nat)) in Er; rewrite app_length, Lp in Er; destruct B' as (_ & _ & _ & B'); lia).
      apply (chunks_unique b) with (r1 := rest) (r2 := skipn (length data / b * b) (permutation k1 (length data))); auto; try (apply B'); try (apply B); try (unfold b; lia).
      - rewrite Er0, firstn_skipn. auto.
      - rewrite skipn_length, Lp. pose proof (Nat.div_mod (length data) b ltac:(discriminate)). pose proof (Nat.mod_upper_bound (length data) b ltac:(discriminate)). lia. }
    subst places'.
    assert (batches' = batches).
    { clear - Fb F'. revert F'. revert batches'. induction Fb as [|x y l l' H _ IH]; intros b' Q; inversion Q; subst; auto. f_equal; auto. eapply rows_of_fun; eauto. }
    subst batches'. destruct places as [|p ps] eqn:Ep.
    + exfalso. destruct B as (_ & _ & _ & B). cbn in B. lia.
    + rewrite Eb. cbn [bind]. rewrite (proj2 (scan_trace _ _ _ _)) by (exists ss; split; [exact T|reflexivity]). auto.
Qed.
(** C90: when there is nothing to train on *)
Theorem epoch_raises b cw rw s key data : 
  (b = 0%nat -> train_epoch P ST OS K split optimize permutation f b cw rw s key data = Raise ZeroDivisionError) /\
  ((length data < b)%nat -> train_epoch P ST OS K split optimize permutation f b cw rw s key data = Raise ValueError).
Proof.
  split.
  - intros ->. auto.
  - intros H. unfold train_epoch. destruct b as [|b]; [lia|]. unfold batch_indices.
    rewrite (Permutation_length (permutes _ _)), seq_length, Nat.div_small by auto. auto.
Qed.

(** the losses that are reported: of these parameters, not training, unweighted *)
Definition reports (train_data test_data : list example) (s : train_state P ST OS) (m : metrics) : Prop :=
  exists k tr te,
    batched_loss_fn _ _ _ f (ts_params _ _ _ s) (ts_state _ _ _ s) train_data k false 1 1 = Ok tr /\
    batched_loss_fn _ _ _ f (ts_params _ _ _ s) (ts_state _ _ _ s) test_data k false 1 1 = Ok te /\
    m_train_class_loss m = mean (lr_class_losses _ tr) /\ m_train_rate_loss m = mean (lr_rate_losses _ tr) /\
    m_test_class_loss m = mean (lr_class_losses _ te) /\ m_test_rate_loss m = mean (lr_rate_losses _ te) /\
    m_train_loss m = m_train_class_loss m + m_train_rate_loss m /\ m_test_loss m = m_test_class_loss m + m_test_rate_loss m.

(** C90: training is a run of epochs, each reported with the losses after it *)
Theorem training_epochs b epochs cw rw train_data test_data key s s' ms :
  train_model P ST OS K split optimize permutation f b epochs cw rw train_data test_data key s = Ok (s', ms) ->
  exists ss, trace (fun s k s' => exists k', train_epoch P ST OS K split optimize permutation f b cw rw s k train_data = Ok (s', k')) s (split key epochs) ss /\
    length ms = epochs /\ Forall2 (reports train_data test_data) ss ms /\ s' = last ss s.
Proof.
  unfold train_model. intros H.
  assert (G : exists ss, trace (fun s k s' => exists k', train_epoch P ST OS K split optimize permutation f b cw rw s k train_data = Ok (s', k')) s (split key epochs) ss /\
    length ms = length (split key epochs) /\ Forall2 (reports train_data test_data) ss ms /\ s' = last ss s).
  2: { rewrite splits in G. auto. }
  revert s s' ms H. generalize (split key epochs). clear splits. induction l as [|k ks IH]; intros s s' ms H; cbn in H.
  - injection H as <- <-. exists []. split; [constructor|auto].
  - destruct (do_epoch _ _ _ _ _ _ _ f b cw rw train_data test_data s k) as [[s1 m]|e|] eqn:Ed; cbn in H; try discriminate.
    destruct (epochs_loop _ _ _ _ _ _ _ f b cw rw train_data test_data s1 ks) as [[s2 ms2]|e|] eqn:Ee; cbn in H; try discriminate. injection H as <- <-.
    destruct (IH _ _ _ Ee) as (ss & T & L & F2 & E2). unfold do_epoch in Ed.
    destruct (train_epoch P ST OS K split optimize permutation f b cw rw s k train_data) as [[s3 k3]|e|] eqn:Et; cbn [bind] in Ed; try discriminate.
    destruct (batched_loss_fn _ _ _ f (ts_params _ _ _ s3) (ts_state _ _ _ s3) test_data k3 false 1 1) as [te|e|] eqn:Ete; cbn [bind] in Ed; try discriminate.
    destruct (batched_loss_fn _ _ _ f (ts_params _ _ _ s3) (ts_state _ _ _ s3) train_data k3 false 1 1) as [tr|e|] eqn:Etr; cbn [bind] in Ed; try discriminate.
    injection Ed as <- <-. exists (s3 :: ss). split; [econstructor; eauto|]. split; [cbn; lia|]. split.
    + constructor; auto. exists k3, tr, te. cbn. rewrite (loss_weights _ _ _ _ _ _ _ _ _ Ete), (loss_weights _ _ _ _ _ _ _ _ _ Etr). repeat split; auto; ring.
    + rewrite last_shift. auto.
Qed.

(** C90: the model does not depend on the data it is tested with *)
Theorem test_data_unused b epochs cw rw train_data test1 test2 key s s1 s2 m1 m2 :
  train_model P ST OS K split optimize permutation f b epochs cw rw train_data test1 key s = Ok (s1, m1) ->
  train_model P ST OS K split optimize permutation f b epochs cw rw train_data test2 key s = Ok (s2, m2) ->
  s1 = s2 /\ map m_train_loss m1 = map m_train_loss m2.
Proof.
  unfold train_model. generalize (split key epochs). intros l. revert s s1 s2 m1 m2. induction l as [|k ks IH]; intros s s1 s2 m1 m2 H1 H2; cbn in H1, H2.
  - injection H1 as <- <-. injection H2 as <- <-. auto.
  - destruct (do_epoch _ _ _ _ _ _ _ f b cw rw train_data test1 s k) as [[u1 v1]|e|] eqn:D1; cbn in H1; try discriminate.
    destruct (do_epoch _ _ _ _ _ _ _ f b cw rw train_data test2 s k) as [[u2 v2]|e|] eqn:D2; cbn in H2; try discriminate.
    destruct (epochs_loop _ _ _ _ _ _ _ f b cw rw train_data test1 u1 ks) as [[w1 x1]|e|] eqn:E1; cbn in H1; try discriminate.
    destruct (epochs_loop _ _ _ _ _ _ _ f b cw rw train_data test2 u2 ks) as [[w2 x2]|e|] eqn:E2; cbn in H2; try discriminate.
    injection H1 as <- <-. injection H2 as <- <-. unfold do_epoch in D1, D2.
    destruct (train_epoch P ST OS K split optimize permutation f b cw rw s k train_data) as [[s3 k3]|e|] eqn:Et; cbn [bind] in D1, D2; try discriminate.
    destruct (batched_loss_fn _ _ _ f (ts_params _ _ _ s3) (ts_state _ _ _ s3) test1 k3 false 1 1) as [te1|e|]; cbn [bind] in D1; try discriminate.
    destruct (batched_loss_fn _ _ _ f (ts_params _ _ _ s3) (ts_state _ _ _ s3) test2 k3 false 1 1) as [te2|e|]; cbn [bind] in D2; try discriminate.
    destruct (batched_loss_fn _ _ _ f (ts_params _ _ _ s3) (ts_state _ _ _ s3) train_data k3 false 1 1) as [tr|e|]; cbn [bind] in D1, D2; try discriminate.
    injection D1 as <- <-. injection D2 as <- <-. destruct (IH _ _ _ _ _ E1 E2) as [-> Em]. cbn. rewrite Em. auto.
Qed.
End Training.
Print Assumptions step_optimises.
Print Assumptions epoch_batches.
Print Assumptions epoch_raises.
Print Assumptions training_epochs.
Print Assumptions test_data_unused.

(** C90: three examples in batches of two, for two epochs, counting the steps *)
Definition ex_apply : apply_type R unit unit := fun p s _ x _ => Ok (map (fun _ => [1; 1; p]) x, s).
Definition ex_optimize (loss : R -> res R) (p : R) (steps : nat) : res (R * nat) := Ok (p, S steps).
Definition ex_data : list example := [mkexample 1 1 [0]; mkexample 0 2 [1]; mkexample 2 3 [2]].
Example training_nonvacuous : (forall (k : unit) n, Permutation (seq 0 n) (seq 0 n)) /\
  exists ms, train_model R unit nat unit (fun k n => repeat k n) ex_optimize (fun _ n => seq 0 n) ex_apply 2 2 1 1 ex_data ex_data tt (mktrain_state R unit nat 1 tt 0%nat)
    = Ok (mktrain_state R unit nat 1 tt 2%nat, ms).
Proof. split; [intros; apply Permutation_refl|]. eexists. lazy -[mean total_rate_loss next_state_loss returned_rates Rplus Rmult Rdiv IZR]. reflexivity. Qed.
