(** C114: the loss of the graph network *)
From Coq Require Import Reals ZArith String Ascii List Bool Arith Lia Lra.
From Verif Require Import Base.Prelude Base.Rounding Model.MicroscopeUtils Model.LearnRates Model.LearningSteps Model.GraphLearning
  Proofs.BaseFacts Proofs.LossFacts Spec.GraphLearning.
Import ListNotations.
Open Scope R_scope.

(** * sums *)
Lemma rsum_cons x l : rsum (x :: l) = x + rsum l.
Proof. reflexivity. Qed.
Lemma rsum_app2 l m : rsum (l ++ m) = rsum l + rsum m.
Proof. induction l as [|x l IH]; cbn [app]; [unfold rsum at 2; cbn; ring|]. rewrite !rsum_cons, IH. ring. Qed.
Lemma rsum_div {A} (f : A -> R) k l : rsum (map (fun x => f x / k) l) = rsum (map f l) / k.
Proof. induction l as [|x l IH]; [cbn; unfold Rdiv; ring|]. cbn [map]. rewrite !rsum_cons, IH. unfold Rdiv. ring. Qed.
Lemma rsum_flat {A} (f : A -> list R) l : rsum (flat_map f l) = rsum (map (fun x => rsum (f x)) l).
Proof. induction l as [|x l IH]; [reflexivity|]. cbn [flat_map map]. rewrite rsum_app2, rsum_cons, IH. reflexivity. Qed.
Lemma flat_length {A B} (f : A -> list B) n l : (forall x, In x l -> length (f x) = n) -> length (flat_map f l) = (length l * n)%nat.
Proof. intros H. induction l as [|x l IH]; [reflexivity|]. cbn. rewrite app_length, H by (left; auto). rewrite IH by (intros; apply H; right; auto). reflexivity. Qed.
Lemma rsum_add {A} (f g : A -> R) l : rsum (map (fun x => f x + g x) l) = rsum (map f l) + rsum (map g l).
Proof. induction l as [|x l IH]; [cbn; ring|]. cbn [map]. rewrite !rsum_cons, IH. ring. Qed.
Lemma rsum_swap {A B} (f : A -> B -> R) l m : rsum (map (fun x => rsum (map (f x) m)) l) = rsum (map (fun y => rsum (map (fun x => f x y) l)) m).
Proof.
  induction l as [|x l IH]; cbn [map]; [induction m as [|y m IHm]; [reflexivity|]; cbn [map]; rewrite rsum_cons, <- IHm; unfold rsum; cbn; ring|]. rewrite rsum_cons, IH, <- rsum_add. reflexivity.
Qed.

Section Loss.
Context {Params Input : Type}.
Variable network : Params -> Input -> (nat -> pt) * (nat -> nat -> pt).
Notation batch := (@gbatch Input).

Lemma skipn_map_seq {A} (f : nat -> A) k n : skipn k (map f (seq 0 n)) = map (fun t => f (k + t)%nat) (seq 0 (n - k)).
Proof.
  rewrite skipn_map. replace (skipn k (seq 0 n)) with (map (fun t => (k + t)%nat) (seq 0 (n - k))); [rewrite map_map; reflexivity|].
  revert n. induction k as [|k IH]; intros n; [rewrite Nat.sub_0_r; cbn [skipn]; rewrite map_id; reflexivity|]. destruct n as [|n]; [reflexivity|]. cbn [seq skipn Nat.sub]. rewrite <- seq_shift, skipn_map, <- IH, map_map. reflexivity.
Qed.
Lemma mean_after_sum start (b : batch) value : (start < gb_steps b)%nat ->
  mean_after start b value = Some (total (gb_steps b - start) (fun t => over_batch b (fun e => value e (start + t)%nat)) / (INR (batch_size b) * INR (gb_steps b - start))).
Proof.
  intros H. unfold mean_after. rewrite skipn_map_seq. set (n := (gb_steps b - start)%nat). assert (0 < n)%nat by (unfold n; lia).
  destruct (map _ (seq 0 n)) as [|x l] eqn:E; [destruct n; [lia|discriminate]|]. rewrite <- E. clear x l E. f_equal. unfold mean at 1. rewrite map_length, seq_length.
  unfold mean, total, over_batch, batch_size. erewrite map_ext; [|intros t; rewrite map_length; reflexivity]. rewrite rsum_div. unfold Rdiv. rewrite Rmult_assoc. f_equal. rewrite Rinv_mult. reflexivity.
Qed.

(** C114: losses are means of squared distances over the examples and the times from the start on; of local ones,
    those of padding points, whose first feature is zero, do not count in the sum; weights give the total *)
Theorem graph_losses start p (b : batch) : (start < gb_steps b)%nat ->
  graph_global_loss network start p b = Some (total (gb_steps b - start) (fun t => over_batch b (fun e =>
    pdist (gx_global e (start + t)%nat) (fst (network p (gx_input e)) (start + t)%nat) ^ 2)) / (INR (batch_size b) * INR (gb_steps b - start))) /\
  graph_local_loss network start p b = Some (total (gb_steps b - start) (fun t => over_batch b (fun e => total (gb_points b) (fun n =>
    gx_mask e (start + t)%nat n * pdist (gx_local e (start + t)%nat n) (snd (network p (gx_input e)) (start + t)%nat n) ^ 2))) / (INR (batch_size b) * INR (gb_steps b - start) * INR (gb_points b))) /\
  (forall w g l, graph_global_loss network start p b = Some g -> graph_local_loss network start p b = Some l -> graph_total_loss network w start p b = Some (g + w * l)).
Proof.
  intros H. assert (Sq : forall a c, psq (psub a c) = pdist a c ^ 2) by (intros a c; unfold pdist, pnorm; rewrite pow2_sqrt; [reflexivity|]; unfold psq; nra). split; [|split].
  - unfold graph_global_loss. rewrite mean_after_sum by auto. f_equal. f_equal. unfold total, over_batch. f_equal. apply map_ext. intros t. f_equal. apply map_ext. intros e. apply Sq.
  - unfold graph_local_loss. rewrite mean_after_sum by auto. f_equal. unfold mean. 
    replace (total (gb_steps b - start) (fun t => over_batch b (fun e => rsum (map (fun n => psq (local_difference network p e (start + t) n) * gx_mask e (start + t)%nat n) (seq 0 (gb_points b))) / INR (length (map (fun n => psq (local_difference network p e (start + t) n) * gx_mask e (start + t)%nat n) (seq 0 (gb_points b))))))) with
      (total (gb_steps b - start) (fun t => over_batch b (fun e => total (gb_points b) (fun n => gx_mask e (start + t)%nat n * pdist (gx_local e (start + t)%nat n) (snd (network p (gx_input e)) (start + t)%nat n) ^ 2))) / INR (gb_points b)).
    + unfold Rdiv. rewrite Rmult_assoc. f_equal. rewrite !Rinv_mult. ring.
    + unfold total, over_batch. rewrite <- rsum_div. f_equal. apply map_ext. intros t. rewrite <- rsum_div. f_equal. apply map_ext. intros e. rewrite map_length, seq_length. unfold Rdiv. f_equal. f_equal. apply map_ext. intros n. unfold local_difference. rewrite Sq. ring.
  - intros w g l Eg El. unfold graph_total_loss. rewrite Eg, El. reflexivity.
Qed.
(** C114: predictions for padding points and for the times before the start do not matter for the loss *)
Theorem padding_ignored w start p p' (b : batch) : (start < gb_steps b)%nat ->
  (forall e t, In e (gb_examples b) -> (start <= t < gb_steps b)%nat -> fst (network p (gx_input e)) t = fst (network p' (gx_input e)) t) ->
  (forall e t n, In e (gb_examples b) -> (start <= t < gb_steps b)%nat -> (n < gb_points b)%nat -> gx_mask e t n <> 0 -> snd (network p (gx_input e)) t n = snd (network p' (gx_input e)) t n) ->
  graph_total_loss network w start p b = graph_total_loss network w start p' b.
Proof.
  intros H G L. destruct (graph_losses start p b H) as (A1 & A2 & A3). destruct (graph_losses start p' b H) as (B1 & B2 & B3). rewrite (A3 w _ _ A1 A2), (B3 w _ _ B1 B2). f_equal. f_equal.
  - f_equal. unfold total, over_batch. f_equal. apply map_ext_in. intros t Ht. apply in_seq in Ht. f_equal. apply map_ext_in. intros e He. rewrite G by (auto; lia). reflexivity.
  - f_equal. f_equal. unfold total, over_batch. f_equal. apply map_ext_in. intros t Ht. apply in_seq in Ht. f_equal. apply map_ext_in. intros e He. f_equal. apply map_ext_in. intros n Hn. apply in_seq in Hn.
    destruct (Req_EM_T (gx_mask e (start + t)%nat n) 0) as [->|Nz]; [ring|]. rewrite L by (auto; lia). reflexivity.
Qed.
(** C114: without a time from the start on there is no loss (NaN) *)
Theorem no_loss w start p (b : batch) : (gb_steps b <= start)%nat -> graph_total_loss network w start p b = None.
Proof.
  intros H. unfold graph_total_loss, graph_global_loss, mean_after. rewrite skipn_map_seq. replace (gb_steps b - start)%nat with 0%nat by lia. reflexivity.
Qed.
(** C114: by default all times but the first count, and both losses alike *)
Theorem default_losses p (b : batch) : (2 <= gb_steps b)%nat ->
  exists g l, graph_global_loss network 1 p b = Some g /\ graph_local_loss network 1 p b = Some l /\
    graph_total_loss network default_local_loss_weight default_loss_start p b = Some (g + l).
Proof.
  intros H. destruct (graph_losses 1 p b ltac:(lia)) as (G & L & W). do 2 eexists. split; [exact G|]. split; [exact L|]. unfold default_loss_start. rewrite (W _ _ _ G L). unfold default_local_loss_weight. f_equal. ring.
Qed.
(** C114: false that reported errors leave out padding and the first time: they are means over all points, times
    and examples *)
Theorem errors_count_padding_refuted p (b : batch) :
  graph_local_error network p b = over_batch b (fun e => total (gb_steps b) (fun t => total (gb_points b) (fun n =>
    pdist (gx_local e t n) (snd (network p (gx_input e)) t n)))) / INR (batch_size b * (gb_steps b * gb_points b)) /\
  graph_global_error network p b = over_batch b (fun e => total (gb_steps b) (fun t => pdist (gx_global e t) (fst (network p (gx_input e)) t))) / INR (batch_size b * gb_steps b).
Proof.
  unfold graph_local_error, graph_global_error, mean, over_batch, total, batch_size. split.
  - rewrite (flat_length _ (gb_steps b * gb_points b)).
    + f_equal. rewrite rsum_flat. f_equal. apply map_ext. intros e. rewrite rsum_flat. reflexivity.
    + intros e _. rewrite (flat_length _ (gb_points b)); [rewrite seq_length; reflexivity|]. intros t _. rewrite map_length, seq_length. reflexivity.
  - rewrite (flat_length _ (gb_steps b)); [|intros e _; rewrite map_length, seq_length; reflexivity]. f_equal. rewrite rsum_flat. reflexivity.
Qed.
End Loss.

Lemma drop_private_in {A} k (v : A) batch : In (k, v) (drop_private batch) <-> In (k, v) batch /\ ~ private k.
Proof.
  unfold drop_private, private. rewrite filter_In. cbn [fst]. split; intros [H1 H2]; (split; [auto|]).
  - intros (r & ->). cbn in H2. discriminate.
  - destruct k as [|c k]; [reflexivity|]. destruct (Ascii.eqb_spec c "_"); [subst; destruct H2; eauto|reflexivity].
Qed.
(** C114: a batch is accepted exactly if, apart from private entries, it has the four entries of an example; these
    are used *)
Theorem batch_entries {A} (batch : list (string * A)) :
  (forall b, batch_arguments batch = Ok b -> forall k v, In (k, v) b <-> In (k, v) batch /\ ~ private k) /\
  ((exists b, batch_arguments batch = Ok b) <->
   (forall k v, In (k, v) batch -> ~ private k -> k = "positions" \/ k = "features" \/ k = "local_labels" \/ k = "global_labels")%string /\
   (forall k, k = "positions" \/ k = "features" \/ k = "local_labels" \/ k = "global_labels" -> exists v, In (k, v) batch)%string) /\
  ((exists b, batch_arguments batch = Ok b) \/ batch_arguments batch = Raise TypeError).
Proof.
  assert (Ga : forall k, In k grad_arguments <-> (k = "positions" \/ k = "features" \/ k = "local_labels" \/ k = "global_labels")%string) by (intros k; unfold grad_arguments; cbn; intuition).
  assert (Np : forall k, In k grad_arguments -> ~ private k). { intros k Hk (r & ->). unfold grad_arguments in Hk. cbn in Hk. intuition discriminate. }
  unfold batch_arguments. destruct (forallb _ _ && forallb _ _) eqn:E; (split; [|split]).
  - intros b Eb k v. injection Eb as <-. apply drop_private_in.
  - split; [intros _|intros _; eauto]. apply andb_prop in E. destruct E as [E1 E2]. rewrite forallb_forall in E1, E2. split.
    + intros k v Hin Nk. apply Ga. assert (Hd : In (k, v) (drop_private batch)) by (apply drop_private_in; auto). apply E1 in Hd. apply existsb_exists in Hd. destruct Hd as (k' & Hk' & Ek). cbn in Ek. apply String.eqb_eq in Ek. subst. auto.
    + intros k Hk. apply Ga in Hk. apply E2 in Hk. apply existsb_exists in Hk. destruct Hk as ((k' & v) & Hin & Ek). cbn in Ek. apply String.eqb_eq in Ek. subst. exists v. apply drop_private_in in Hin. tauto.
  - eauto.
  - discriminate.
  - split; [intros (b & Eb); discriminate|]. intros [H1 H2]. exfalso. assert (X : true = false); [|discriminate]. rewrite <- E. symmetry. apply andb_true_intro. split; apply forallb_forall.
    + intros [k v] Hin. apply drop_private_in in Hin. destruct Hin as [Hin Nk]. apply existsb_exists. exists k. split; [apply Ga; eauto|apply String.eqb_refl].
    + intros k Hk. destruct (H2 k) as (v & Hv); [apply Ga; auto|]. apply existsb_exists. exists (k, v). split; [apply drop_private_in; auto|apply String.eqb_refl].
  - auto.
Qed.
Print Assumptions graph_losses.
Print Assumptions padding_ignored.
Print Assumptions no_loss.
Print Assumptions default_losses.
Print Assumptions errors_count_padding_refuted.
Print Assumptions batch_entries.

(** two points, one of them padding, at two times: right but for the padding point *)
Example graph_learning_nonvacuous :
  let network (_ : unit) (_ : unit) := ((fun t => mkpt (INR t) 0), (fun t n => mkpt 0 (INR n))) in
  let b := mkgbatch 2 2 [mkgexample tt (fun t n => if (n =? 0)%nat then 1 else 0) (fun t => mkpt (INR t) 0) (fun t n => mkpt 0 0)] in
  graph_total_loss network default_local_loss_weight default_loss_start tt b = Some 0 /\ graph_local_error network tt b = 1 / 2 /\
  (exists a, batch_arguments [("_id", 1); ("positions", 2); ("features", 3); ("local_labels", 4); ("global_labels", 5)]%string = Ok a).
Proof.
  cbv zeta. set (network := fun (_ : unit) (_ : unit) => _). set (b := mkgbatch _ _ _). split; [|split; [|eexists; reflexivity]].
  - destruct (graph_losses network default_loss_start tt b) as (G & L & W); [cbn; unfold default_loss_start; lia|]. rewrite (W _ _ _ G L). f_equal. cbn. unfold rsum, pdist, pnorm, psq, psub, default_local_loss_weight. cbn.
    replace ((1 - 1) * (1 - 1) + (0 - 0) * (0 - 0)) with 0 by ring. replace ((0 - 0) * (0 - 0) + (0 - 0) * (0 - 0)) with 0 by ring. rewrite sqrt_0. field.
  - destruct (errors_count_padding_refuted network tt b) as [-> _]. cbn. unfold rsum, pdist, pnorm, psq, psub. cbn. replace ((0 - 0) * (0 - 0) + (0 - 0) * (0 - 0)) with 0 by ring. replace ((0 - 0) * (0 - 0) + (0 - 1) * (0 - 1)) with 1 by ring. rewrite sqrt_0, sqrt_1. field.
Qed.
