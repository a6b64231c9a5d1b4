(** C112: training steps and what is reported about them *)
From Coq Require Import Reals ZArith String List Bool Arith Lia Lra.
From Verif Require Import Base.Prelude Base.Rounding Model.MicroscopeUtils Model.LearnRates Model.ModelTraining Model.LearningSteps
  Proofs.BaseFacts Proofs.LossFacts Spec.WaitingTimes Spec.LearningSteps.
Import ListNotations.
Open Scope R_scope.

(** * dictionaries *)
Lemma lookup_cons {A} k k' (v : A) m : lookup_key k ((k', v) :: m) = if String.eqb k' k then Some v else lookup_key k m.
Proof. unfold lookup_key. cbn. destruct (String.eqb k' k); reflexivity. Qed.
Lemma lookup_set {A} (d : list (string * A)) k v k' : lookup_key k' (dict_set d k v) = if String.eqb k k' then Some v else lookup_key k' d.
Proof.
  induction d as [|[a x] d IH]; cbn [dict_set]; [rewrite lookup_cons; reflexivity|]. destruct (String.eqb_spec a k) as [->|N]; rewrite !lookup_cons; [destruct (String.eqb k k'); reflexivity|].
  rewrite IH. destruct (String.eqb_spec a k') as [->|]; [|reflexivity]. destruct (String.eqb_spec k k'); [congruence|reflexivity].
Qed.
Lemma lookup_update {A} (e : list (string * A)) : forall d k, NoDup (map fst e) -> lookup_key k (dict_update d e) = match lookup_key k e with Some v => Some v | None => lookup_key k d end.
Proof.
  unfold dict_update. induction e as [|[a x] e IH]; intros d k N; [reflexivity|]. cbn [fold_left fst snd]. inversion N as [|? ? N1 N2]; subst. rewrite IH by auto. rewrite lookup_cons, lookup_set.
  destruct (String.eqb_spec a k) as [->|]; [|reflexivity]. replace (lookup_key k e) with (@None A); [reflexivity|]. symmetry. unfold lookup_key. destruct (find _ e) as [[b y]|] eqn:F; [|reflexivity].
  apply find_some in F. destruct F as [F1 F2]. cbn in F2. apply String.eqb_eq in F2. subst b. destruct N1. apply in_map_iff. exists (k, y). auto.
Qed.
Lemma append_injective p a b : append p a = append p b -> a = b.
Proof. induction p; cbn; [auto|]. intros E. injection E. auto. Qed.
Lemma lookup_prefix {A} p k (m : list (string * A)) : lookup_key (append p k) (prefix_dict_keys p m) = lookup_key k m.
Proof.
  induction m as [|[a x] m IH]; [reflexivity|]. cbn [prefix_dict_keys map fst snd]. rewrite !lookup_cons. fold (prefix_dict_keys p m). rewrite IH.
  destruct (String.eqb_spec (append p a) (append p k)) as [E|N], (String.eqb_spec a k) as [E'|N']; auto; [apply append_injective in E; congruence|congruence].
Qed.
Lemma lookup_none {A} k (m : list (string * A)) : ~ In k (map fst m) -> lookup_key k m = None.
Proof.
  intros N. unfold lookup_key. destruct (find _ m) as [[a x]|] eqn:F; [|reflexivity]. apply find_some in F. destruct F as [F1 F2]. cbn in F2. apply String.eqb_eq in F2. subst. destruct N. apply in_map_iff. exists (k, x). auto.
Qed.
Lemma keys_prefix {A} p (m : list (string * A)) : map fst (prefix_dict_keys p m) = map (append p) (map fst m).
Proof. unfold prefix_dict_keys. rewrite !map_map. reflexivity. Qed.
Lemma keys_compute m : map fst (compute_metrics m) = map fst m.
Proof. unfold compute_metrics. rewrite map_map. reflexivity. Qed.
Lemma keys_merge m o : map fst (merge_metrics m o) = map fst m.
Proof. unfold merge_metrics. rewrite map_map. reflexivity. Qed.
Lemma nodup_append p l : NoDup l -> NoDup (map (append p) l).
Proof. apply FinFun.Injective_map_NoDup. intros a b. apply append_injective. Qed.
Lemma lookup_reported train eval k : NoDup (map fst eval) ->
  lookup_key (append "train/" k) (reported train eval) = lookup_key k (compute_metrics train) /\
  lookup_key (append "eval/" k) (reported train eval) = match lookup_key k (compute_metrics eval) with Some v => Some v | None => None end.
Proof.
  intros N. unfold reported. rewrite !lookup_update by (rewrite keys_prefix, keys_compute; apply nodup_append; auto). split.
  - rewrite lookup_prefix. rewrite (lookup_none _ (prefix_dict_keys "eval/" _)); [reflexivity|]. rewrite keys_prefix. intros H. apply in_map_iff in H. destruct H as (x & E & _). discriminate.
  - rewrite lookup_prefix. destruct (lookup_key k (compute_metrics eval)); [reflexivity|]. apply lookup_none. rewrite keys_prefix. intros H. apply in_map_iff in H. destruct H as (x & E & _). discriminate.
Qed.
Lemma lookup_map_value {A B} (f : A -> B) k (m : list (string * A)) : lookup_key k (map (fun a => (fst a, f (snd a))) m) = option_map f (lookup_key k m).
Proof. induction m as [|[a x] m IH]; [reflexivity|]. cbn [map fst snd]. rewrite !lookup_cons, IH. destruct (String.eqb a k); reflexivity. Qed.
Lemma lookup_merge k m o : lookup_key k (merge_metrics m o) =
  option_map (fun a => match lookup_key k o with Some x => average_add a x | None => a end) (lookup_key k m).
Proof.
  induction m as [|[a x] m IH]; [reflexivity|]. unfold merge_metrics in *. cbn [map fst snd]. rewrite !lookup_cons, IH. destruct (String.eqb_spec a k) as [->|]; reflexivity.
Qed.
Lemma lookup_empty k names : In k names -> lookup_key k (empty_metrics names) = Some average_empty.
Proof.
  induction names as [|a names IH]; intros H; [destruct H|]. unfold empty_metrics in *. cbn [map]. rewrite lookup_cons. destruct (String.eqb_spec a k); [reflexivity|]. apply IH. destruct H; [congruence|auto].
Qed.

(** * averages *)
Lemma add_all xs : forall a, fold_left average_add xs a = mkaverage (av_total a + rsum xs) (av_count a + length xs).
Proof.
  induction xs as [|x xs IH]; intros [t n]; cbn [fold_left length]; [cbn; rewrite Rplus_0_r, Nat.add_0_r; reflexivity|]. rewrite IH. cbn. unfold rsum. f_equal; [ring|lia].
Qed.
Lemma averaged_all xs : averaged xs (average_compute (fold_left average_add xs average_empty)).
Proof.
  rewrite add_all. unfold averaged, average_compute, average_empty. cbn [av_count av_total Nat.add]. destruct xs as [|x xs]; [left; auto|]. right. split; [discriminate|]. cbn [length]. rewrite Rplus_0_l. reflexivity.
Qed.

Section Steps.
Context {Params Opt Grads Batch : Type}.
Variable loss : Params -> Batch -> R.
Variable outputs : Params -> Batch -> list (string * R).
Variable gradient : (Params -> R) -> Params -> Grads.
Variable optimizer : Grads -> Opt -> Params -> Params * Opt.
Notation train_step := (train_step loss outputs gradient optimizer).
Notation eval_step := (eval_step outputs).
Notation epoch := (epoch loss outputs gradient optimizer).
Notation detection_epoch := (detection_epoch loss outputs gradient optimizer).
Notation descends := (descends loss gradient optimizer).
Notation state := (@train_state Params Opt).

Lemma training batches : forall s : state, exists ps, descends (ts_params s, ts_opt s) batches ps (ts_params (fold_left train_step batches s), ts_opt (fold_left train_step batches s)) /\
  length ps = length batches /\
  ts_step (fold_left train_step batches s) = (ts_step s + length batches)%nat /\ map fst (ts_metrics (fold_left train_step batches s)) = map fst (ts_metrics s) /\
  forall k xs, Forall2 (fun pb x => lookup_key k (outputs (fst pb) (snd pb)) = Some x) (combine ps batches) xs ->
    lookup_key k (ts_metrics (fold_left train_step batches s)) = option_map (fold_left average_add xs) (lookup_key k (ts_metrics s)).
Proof.
  induction batches as [|b batches IH]; intros s; cbn [fold_left].
  - exists []. split; [constructor|]. split; [auto|]. split; [cbn; lia|]. split; [auto|]. intros k xs F. inversion F; subst. destruct (lookup_key k (ts_metrics s)); reflexivity.
  - destruct (IH (train_step s b)) as (ps & D & Lp & Ls & Lk & M).
    assert (E : train_step s b = mkstate (S (ts_step s)) (fst (optimizer (gradient (fun q => loss q b) (ts_params s)) (ts_opt s) (ts_params s))) (snd (optimizer (gradient (fun q => loss q b) (ts_params s)) (ts_opt s) (ts_params s))) (merge_metrics (ts_metrics s) (outputs (ts_params s) b))).
    { unfold LearningSteps.train_step, apply_gradients. destruct (optimizer _ _ _). reflexivity. }
    exists (ts_params s :: ps). split; [|split; [|split; [|split]]].
    + constructor. rewrite E in D at 1 2. cbn [ts_params ts_opt] in D. rewrite <- surjective_pairing in D. exact D.
    + cbn. lia.
    + rewrite Ls, E. cbn. lia.
    + rewrite Lk, E. cbn [ts_metrics]. apply keys_merge.
    + intros k xs F. cbn [combine] in F. inversion F as [|? x ? xs' Hx F']; subst. rewrite (M k xs' F'), E. cbn [ts_metrics fst snd] in *. rewrite lookup_merge, Hx. destruct (lookup_key k (ts_metrics s)); reflexivity.
Qed.
Lemma evaluating batches : forall s : state, ts_params (fold_left eval_step batches s) = ts_params s /\ map fst (ts_metrics (fold_left eval_step batches s)) = map fst (ts_metrics s) /\
  forall k xs, Forall2 (fun b x => lookup_key k (outputs (ts_params s) b) = Some x) batches xs ->
    lookup_key k (ts_metrics (fold_left eval_step batches s)) = option_map (fold_left average_add xs) (lookup_key k (ts_metrics s)).
Proof.
  induction batches as [|b batches IH]; intros s; cbn [fold_left].
  - split; [auto|]. split; [auto|]. intros k xs F. inversion F; subst. destruct (lookup_key k (ts_metrics s)); reflexivity.
  - destruct (IH (eval_step s b)) as (Ep & Ek & M). split; [rewrite Ep; reflexivity|]. split; [rewrite Ek; unfold LearningSteps.eval_step, replace_metrics; cbn; apply keys_merge|].
    intros k xs F. inversion F as [|? x ? xs' Hx F']; subst. rewrite (M k xs' F'). unfold LearningSteps.eval_step, replace_metrics. cbn [ts_metrics ts_params]. rewrite lookup_merge, Hx. destruct (lookup_key k (ts_metrics s)); reflexivity.
Qed.
Lemma evaluating' (s : state) batches : forall m, map fst (fold_left (eval_metrics_step outputs s) batches m) = map fst m /\
  forall k xs, Forall2 (fun b x => lookup_key k (outputs (ts_params s) b) = Some x) batches xs ->
    lookup_key k (fold_left (eval_metrics_step outputs s) batches m) = option_map (fold_left average_add xs) (lookup_key k m).
Proof.
  induction batches as [|b batches IH]; intros m; cbn [fold_left].
  - split; [auto|]. intros k xs F. inversion F; subst. destruct (lookup_key k m); reflexivity.
  - destruct (IH (eval_metrics_step outputs s m b)) as (Ek & M). split; [rewrite Ek; apply keys_merge|].
    intros k xs F. inversion F as [|? x ? xs' Hx F']; subst. rewrite (M k xs' F'). unfold eval_metrics_step. rewrite lookup_merge, Hx. destruct (lookup_key k m); reflexivity.
Qed.
Lemma keys_empty names : map fst (empty_metrics names) = names.
Proof. unfold empty_metrics. rewrite map_map. cbn. apply map_id. Qed.
Lemma lookup_compute k m : lookup_key k (compute_metrics m) = option_map average_compute (lookup_key k m).
Proof. unfold compute_metrics. apply lookup_map_value. Qed.

(** C112: an epoch takes one step for every batch for training, from the parameters it started with; the metrics
    for training are the averages over these batches, each with the parameters before its step, and the metrics
    for evaluation the averages over the others, with the parameters after the last step.  They are all reported *)
Theorem epoch_averages names (s : state) train test s' report : NoDup names -> epoch names s train test = (s', report) ->
  exists ps, descends (ts_params s, ts_opt s) train ps (ts_params s', ts_opt s') /\ length ps = length train /\ ts_step s' = (ts_step s + length train)%nat /\
  forall k, In k names ->
    (forall xs, Forall2 (fun pb x => lookup_key k (outputs (fst pb) (snd pb)) = Some x) (combine ps train) xs ->
      exists o, lookup_key (append "train/" k) report = Some o /\ averaged xs o) /\
    (forall xs, Forall2 (fun b x => lookup_key k (outputs (ts_params s') b) = Some x) test xs ->
      exists o, lookup_key (append "eval/" k) report = Some o /\ averaged xs o).
Proof.
  intros Nd H. unfold LearningSteps.epoch, train_batches in H. destruct (training train (replace_metrics s (empty_metrics names))) as (ps & D & Lp & Ls & Lk & M).
  set (s1 := fold_left train_step train (replace_metrics s (empty_metrics names))) in *. injection H as <- <-. exists ps. split; [exact D|]. split; [auto|]. split; [exact Ls|].
  destruct (evaluating test (replace_metrics s1 (empty_metrics names))) as (_ & Ek & Me). intros k Hk.
  destruct (lookup_reported (ts_metrics s1) (ts_metrics (fold_left eval_step test (replace_metrics s1 (empty_metrics names)))) k) as [R1 R2].
  { rewrite Ek. cbn [replace_metrics ts_metrics]. rewrite keys_empty. auto. }
  split; intros xs F.
  - rewrite R1, lookup_compute, (M k xs F). cbn [replace_metrics ts_metrics]. rewrite lookup_empty by auto. eexists. split; [reflexivity|]. apply averaged_all.
  - rewrite R2, lookup_compute, (Me k xs F). cbn [replace_metrics ts_metrics]. rewrite lookup_empty by auto. eexists. split; [reflexivity|]. apply averaged_all.
Qed.
(** C112: the same for the atom detector, with fewer metrics for evaluation *)
Theorem detection_epoch_averages names eval_names (s : state) train test s' report : NoDup eval_names -> detection_epoch names eval_names s train test = (s', report) ->
  exists ps, descends (ts_params s, ts_opt s) train ps (ts_params s', ts_opt s') /\ length ps = length train /\ ts_step s' = (ts_step s + length train)%nat /\
  (forall k, In k names -> forall xs, Forall2 (fun pb x => lookup_key k (outputs (fst pb) (snd pb)) = Some x) (combine ps train) xs ->
      exists o, lookup_key (append "train/" k) report = Some o /\ averaged xs o) /\
  (forall k, In k eval_names -> forall xs, Forall2 (fun b x => lookup_key k (outputs (ts_params s') b) = Some x) test xs ->
      exists o, lookup_key (append "eval/" k) report = Some o /\ averaged xs o).
Proof.
  intros Nd H. unfold LearningSteps.detection_epoch, train_batches in H. destruct (training train (replace_metrics s (empty_metrics names))) as (ps & D & Lp & Ls & Lk & M).
  set (s1 := fold_left train_step train (replace_metrics s (empty_metrics names))) in *. injection H as <- <-. exists ps. split; [exact D|]. split; [auto|]. split; [exact Ls|].
  destruct (evaluating' s1 test (empty_metrics eval_names)) as (Ek & Me).
  assert (Rp : forall k, _) by (intros k; apply (lookup_reported (ts_metrics s1) (fold_left (eval_metrics_step outputs s1) test (empty_metrics eval_names)) k); rewrite Ek, keys_empty; auto).
  split; intros k Hk xs F; destruct (Rp k) as [R1 R2].
  - rewrite R1, lookup_compute, (M k xs F). cbn [replace_metrics ts_metrics]. rewrite lookup_empty by auto. eexists. split; [reflexivity|]. apply averaged_all.
  - rewrite R2, lookup_compute, (Me k xs F). rewrite lookup_empty by auto. eexists. split; [reflexivity|]. apply averaged_all.
Qed.
(** C112: metrics of earlier epochs change nothing *)
Theorem metrics_forgotten names (s t : state) train test : ts_step s = ts_step t -> ts_params s = ts_params t -> ts_opt s = ts_opt t -> epoch names s train test = epoch names t train test.
Proof. intros E1 E2 E3. unfold LearningSteps.epoch, train_batches, replace_metrics. rewrite E1, E2, E3. reflexivity. Qed.
End Steps.

(** * losses *)
Lemma target_product t l k : target_of t k -> length l = length t -> rsum (map2 Rmult t l) = nth k l 0.
Proof.
  revert l k. induction t as [|a t IH]; intros l k [Hk H] L; [cbn in Hk; lia|]. destruct l as [|b l]; [discriminate|]. cbn [length] in *. cbn [map2 rsum fold_right].
  pose proof (H 0%nat ltac:(lia)) as H0. cbn in H0. destruct k as [|k].
  - cbn in H0. subst a. replace (fold_right Rplus 0 (map2 Rmult t l)) with 0; [cbn; ring|]. symmetry.
    assert (Z : forall x, In x t -> x = 0). { intros x Hx. destruct (In_nth _ _ 0 Hx) as (i & Hi & <-). apply (H (S i)). lia. }
    clear -Z. revert l. induction t as [|a t IH]; intros l; [reflexivity|]. destruct l as [|b l]; [reflexivity|]. cbn. rewrite IH by (intros; apply Z; right; auto). rewrite (Z a) by (left; auto). ring.
  - cbn in H0. subst a. cbn [nth]. rewrite <- (IH l k); [unfold rsum; ring| |lia]. split; [lia|]. intros i Hi. apply (H (S i)). lia.
Qed.
(** C112: the loss of a pixel with a class is minus the logarithm of the probability the network gives to the
    class, which is positive if there is another class; without a class it is zero, whatever the network *)
Theorem pixel_loss logits target : length logits = length target ->
  (forall k w, target_of target k -> weights_of logits w -> softmax_cross_entropy logits target = - ln (nth k w 0) /\ ((2 <= length logits)%nat -> 0 < softmax_cross_entropy logits target)) /\
  (no_target target -> softmax_cross_entropy logits target = 0).
Proof.
  intros L. split.
  - intros k w T W. destruct (weights_unique _ _ W) as [N ->]. unfold softmax_cross_entropy. rewrite (target_product _ _ k T) by (unfold log_softmax; rewrite map_length; auto). destruct T as [Hk _]. rewrite <- L in Hk.
    destruct (nth_error logits k) as [s|] eqn:Es; [|apply nth_error_None in Es; lia]. destruct (log_softmax_nth _ _ _ N Es) as (p & E1 & E2 & Pp). rewrite (nth_error_nth _ _ _ E1), (nth_error_nth _ _ _ E2). split; [reflexivity|].
    intros L2. assert (p < 1). 
    { assert (Hi : exists i, (i < length logits)%nat /\ i <> k) by (destruct k; [exists 1%nat|exists 0%nat]; lia). destruct Hi as (i & Hi & Ni). destruct (nth_error (softmax logits) i) as [q|] eqn:Eq; [|apply nth_error_None in Eq; unfold softmax in Eq; rewrite map_length in Eq; lia].
      pose proof (weights_pos _ _ W q (nth_error_In _ _ Eq)) as Qp. destruct W as [S1 _]. assert (p + q <= rsum (softmax logits)); [|lra].
      assert (G : forall l, (forall x, In x l -> 0 < x) -> nth_error l k = Some p -> nth_error l i = Some q -> p + q <= rsum l).
      { clear -Ni. revert i Ni. induction k as [|k IH]; intros i Ni [|a l] Hp Ek Ei; try discriminate.
        - cbn in Ek. injection Ek as ->. destruct i as [|i]; [congruence|]. cbn in Ei. cbn. assert (q <= rsum l); [|unfold rsum in *; lra]. apply rsum_In_le; [intros; left; apply Hp; right; auto|eapply nth_error_In; eauto].
        - cbn in Ek. destruct i as [|i].
          + cbn in Ei. injection Ei as ->. cbn. assert (p <= rsum l); [|unfold rsum in *; lra]. apply rsum_In_le; [intros; left; apply Hp; right; auto|eapply nth_error_In; eauto].
          + cbn in Ei. cbn. pose proof (Hp a (or_introl eq_refl)). specialize (IH i ltac:(lia) l ltac:(intros; apply Hp; right; auto) Ek Ei). unfold rsum in *. lra. }
      apply G; auto. intros x Hx. apply (weights_pos logits (softmax logits)); [apply softmax_weights; auto|exact Hx]. }
    rewrite <- ln_1 at 1. pose proof (ln_increasing p 1 Pp H). rewrite ln_1 in *. lra.
  - intros Z. unfold softmax_cross_entropy. assert (E : rsum (map2 Rmult target (log_softmax logits)) = 0); [|lra]. generalize (log_softmax logits). clear -Z. induction target as [|a t IH]; intros l; [reflexivity|]. destruct l as [|b l]; [reflexivity|].
    cbn. unfold rsum in IH. rewrite IH by (intros x Hx; apply Z; right; auto). rewrite (Z a) by (left; auto). ring.
Qed.

(** * accuracies *)
Lemma argmax_predicted l k : argmax l = Some k <-> predicted l k.
Proof.
  unfold argmax. assert (Nm : forall i, (i < length l)%nat -> nth i (map Ropp l) 0 = - nth i l 0) by (intros i Hi; rewrite (nth_indep _ 0 (- 0)) by (rewrite map_length; auto); apply map_nth).
  assert (F : forall k, argmin (map Ropp l) = Some k -> predicted l k).
  { intros j H. apply argmin_spec in H. rewrite map_length in H. destruct H as (H1 & H2 & H3). split; [auto|]. split.
    - intros i Hi. specialize (H2 i Hi). rewrite !Nm in H2 by auto. lra.
    - intros i Hi. specialize (H3 i Hi). rewrite !Nm in H3 by lia. lra. }
  split; [apply F|]. intros (P1 & P2 & P3). destruct (argmin_Some (map Ropp l)) as (j & E); [destruct l; [cbn in P1; lia|discriminate]|]. rewrite E. f_equal. apply F in E. destruct E as (Q1 & Q2 & Q3).
  destruct (Nat.lt_trichotomy j k) as [Hl|[He|Hg]]; [|auto|].
  - specialize (P3 j Hl). specialize (Q2 k P1). lra.
  - specialize (Q3 k Hg). specialize (P2 j Q1). lra.
Qed.
Lemma same_correct x t : length x = length t -> x <> [] -> (same_index (argmax x) (argmax t) = true <-> correct (x, t)).
Proof.
  intros L N. unfold correct. cbn [fst snd]. destruct (argmax x) as [i|] eqn:Ei; [destruct (argmax t) as [j|] eqn:Ej|].
  - cbn. rewrite Nat.eqb_eq. split.
    + intros ->. exists j. split; apply argmax_predicted; auto.
    + intros (k & H1 & H2). apply argmax_predicted in H1, H2. congruence.
  - exfalso. unfold argmax in Ej. apply argmin_None in Ej. destruct t; [|discriminate]. destruct x; [congruence|discriminate].
  - exfalso. unfold argmax in Ei. apply argmin_None in Ei. destruct x; [congruence|discriminate].
Qed.
Lemma counted {A} (P : A -> Prop) (f : A -> bool) l n : counts P l n -> (forall x, In x l -> (f x = true <-> P x)) -> rsum (map (fun x => indicator (f x)) l) = INR n.
Proof.
  induction 1 as [|x l n Hp Hc IH|x l n Hn Hc IH]; intros F; [reflexivity| |]; cbn [map rsum fold_right]; unfold rsum in IH; rewrite IH by (intros; apply F; right; auto); destruct (f x) eqn:E; cbn [indicator].
  - rewrite S_INR. ring.
  - apply (F x) in Hp; [congruence|left; auto].
  - destruct Hn. apply (F x); [left; auto|auto].
  - ring.
Qed.
Lemma map2_combine {A B C} (f : A -> B -> C) l : forall m, map2 f l m = map (fun p => f (fst p) (snd p)) (combine l m).
Proof. induction l as [|x l IH]; intros [|y m]; cbn; auto. rewrite IH. reflexivity. Qed.
Lemma flat_map_map {A B C} (f : A -> list B) (g : B -> C) l : flat_map (fun x => map g (f x)) l = map g (flat_map f l).
Proof. induction l as [|x l IH]; [reflexivity|]. cbn. rewrite map_app, IH. reflexivity. Qed.

Section Detection.
Context {Params Image : Type}.
Variable network : Params -> Image -> list (list R).
(** the logits and targets of all pixels of a batch *)
Definition pixel_pairs (p : Params) (b : @dbatch Image) : list (list R * list R) := flat_map (fun e => combine (network p (fst e)) (snd e)) b.
Definition well_shaped (p : Params) (b : @dbatch Image) : Prop := forall x t, In (x, t) (pixel_pairs p b) -> length x = length t /\ x <> [].

(** C112: the accuracy of a batch is the part of its pixels whose largest logit is that of the class; the loss is
    the mean of those of its pixels *)
Theorem detection_batch p b n : well_shaped p b -> counts correct (pixel_pairs p b) n ->
  detection_accuracy network p b = INR n / INR (length (pixel_pairs p b)) /\
  detection_loss network p b = rsum (map (fun xt => softmax_cross_entropy (fst xt) (snd xt)) (pixel_pairs p b)) / INR (length (pixel_pairs p b)).
Proof.
  intros W C. unfold detection_accuracy, detection_loss, mean, pixel_pairs in *. split.
  - rewrite (flat_map_ext _ (fun e => map (fun xt => same_index (argmax (fst xt)) (argmax (snd xt))) (combine (network p (fst e)) (snd e)))) by (intros; rewrite map2_combine; reflexivity).
    rewrite flat_map_map, map_map, map_length. f_equal. eapply counted; [exact C|]. intros [x t] H. cbn [fst snd]. destruct (W x t H). apply same_correct; auto.
  - rewrite (flat_map_ext _ (fun e => map (fun xt => softmax_cross_entropy (fst xt) (snd xt)) (combine (network p (fst e)) (snd e)))) by (intros; rewrite map2_combine; reflexivity).
    rewrite flat_map_map, map_length. reflexivity.
Qed.
Lemma counts_app {A} (P : A -> Prop) l n : counts P l n -> forall l' n', counts P l' n' -> counts P (l ++ l') (n + n').
Proof. induction 1; intros l' n' H'; cbn; auto; constructor; auto. Qed.
Lemma counts_split {A} (P : A -> Prop) l : forall l' n, counts P (l ++ l') n -> exists a b, counts P l a /\ counts P l' b /\ n = (a + b)%nat.
Proof.
  induction l as [|x l IH]; intros l' n H; cbn in H; [exists 0%nat, n; split; [constructor|auto]|]. inversion H; subst.
  - destruct (IH _ _ H4) as (a & b & C1 & C2 & ->). exists (S a), b. split; [constructor; auto|auto].
  - destruct (IH _ _ H4) as (a & b & C1 & C2 & ->). exists a, b. split; [constructor; auto|auto].
Qed.

(** C112: if all batches have as many pixels, the accuracy that is reported is the part of all pixels *)
Theorem reported_accuracy {Opt Grads : Type} loss gradient (optimizer : Grads -> Opt -> Params -> Params * Opt) (s : @train_state Params Opt) train test s' report size n :
  detection_epoch loss (detection_outputs network) gradient optimizer ["accuracy"; "loss"]%string ["accuracy"]%string s train test = (s', report) ->
  test <> [] -> (0 < size)%nat -> (forall b, In b test -> well_shaped (ts_params s') b /\ length (pixel_pairs (ts_params s') b) = size) ->
  counts correct (flat_map (pixel_pairs (ts_params s')) test) n ->
  lookup_key "eval/accuracy" report = Some (Some (INR n / INR (length (flat_map (pixel_pairs (ts_params s')) test)))).
Proof.
  intros H Ne Hs Hb C. apply detection_epoch_averages in H; [|repeat constructor; intros []]. destruct H as (ps & _ & _ & _ & _ & Ev).
  destruct (Ev "accuracy"%string (or_introl eq_refl) (map (detection_accuracy network (ts_params s')) test)) as (o & E & A).
  { clear. induction test; constructor; auto. }
  change (append "eval/" "accuracy") with "eval/accuracy"%string in E. rewrite E. f_equal. destruct A as [[A _]|[_ ->]]; [destruct test; [congruence|discriminate]|]. f_equal. rewrite map_length.
  set (p := ts_params s') in *. clear E Ev. 
  assert (G : forall l n, (forall b, In b l -> well_shaped p b /\ length (pixel_pairs p b) = size) -> counts correct (flat_map (pixel_pairs p) l) n ->
     rsum (map (detection_accuracy network p) l) = INR n / INR size /\ length (flat_map (pixel_pairs p) l) = (length l * size)%nat).
  { induction l as [|b l IH]; intros m Hl Hc; cbn in Hc.
    - inversion Hc; subst. cbn. split; [unfold Rdiv; ring|auto].
    - apply counts_split in Hc. destruct Hc as (a & c & C1 & C2 & ->). destruct (Hl b (or_introl eq_refl)) as [W Lb]. destruct (IH c) as [E1 E2]; [intros; apply Hl; right; auto|auto|]. cbn [map rsum fold_right flat_map length]. unfold rsum in E1. rewrite E1. destruct (detection_batch p b a W C1) as [-> _]. rewrite Lb, plus_INR, app_length, E2, Lb. split; [unfold Rdiv; ring|lia]. }
  destruct (G test n Hb C) as [-> ->]. rewrite mult_INR. assert (INR size <> 0) by (apply not_0_INR; lia). assert (INR (length test) <> 0) by (apply not_0_INR; destruct test; [congruence|discriminate]). field. auto.
Qed.
End Detection.

Section Alignment.
Context {Params Image : Type}.
Variable network : Params -> Image -> list (list (list R)) * list pt.
Notation batch := (@abatch Image).
(** all targets of a batch, all logits of it, and all pairs of drifts *)
Definition batch_targets (b : batch) : list (list R) := concat (flat_map ax_mask b).
Definition batch_logits (p : Params) (b : batch) : list (list R) := concat (flat_map (fun e => fst (network p (ax_image e))) b).
Definition batch_drifts (p : Params) (b : batch) : list (pt * pt) := flat_map (fun e => combine (ax_drift e) (snd (network p (ax_image e)))) b.

Lemma first_target (t : list R) ts k : target_of t k -> (forall x, In x ts -> x <= 1) -> predicted (t ++ ts) k.
Proof.
  intros [Hk T] H. pose proof (T k Hk) as Ek. rewrite Nat.eqb_refl in Ek. split; [rewrite app_length; lia|]. rewrite (app_nth1 t ts 0 Hk), Ek. split.
  - intros i Hi. destruct (Nat.lt_ge_cases i (length t)) as [Hl|Hg]; [rewrite app_nth1, T by auto; destruct (Nat.eqb i k); lra|]. rewrite app_nth2 by auto. apply H. apply nth_In. rewrite app_length in Hi. lia.
  - intros i Hi. rewrite app_nth1, T by lia. destruct (Nat.eqb_spec i k); [lia|lra].
Qed.
Lemma accuracies_flat p b : concat (accuracies network p b) = map (fun x => indicator (same_index (argmax x) (mask_argmax b))) (batch_logits p b).
Proof.
  unfold accuracies, batch_logits. rewrite flat_map_map. rewrite <- concat_map. reflexivity.
Qed.
(** C112: false that the accuracy of image alignment compares with the classes of the pixels: it compares with
    that of the first pixel of the batch *)
Theorem alignment_accuracy_refuted p b t ts k n : batch_targets b = t :: ts -> target_of t k -> (forall u x, In u ts -> In x u -> x <= 1) ->
  counts (fun x => predicted x k) (batch_logits p b) n ->
  alignment_accuracy network p b = INR n / INR (length (batch_logits p b)).
Proof.
  intros E T H C. unfold alignment_accuracy, mean. rewrite accuracies_flat, map_length. f_equal. eapply counted; [exact C|]. intros x _.
  assert (M : mask_argmax b = Some k). { unfold mask_argmax. fold (batch_targets b). rewrite E. apply argmax_predicted. cbn [concat]. apply first_target; auto. intros y Hy. apply in_concat in Hy. destruct Hy as (u & Hu & Hy). eauto. }
  rewrite M. split.
  - destruct (argmax x) as [j|] eqn:Ej; [|discriminate]. cbn. rewrite Nat.eqb_eq. intros ->. apply argmax_predicted. auto.
  - intros P. apply argmax_predicted in P. rewrite P. cbn. apply Nat.eqb_refl.
Qed.
(** C112: and if the first pixel of the batch has no class but another one has, it is zero *)
Theorem alignment_accuracy_zero p b zeros t ts k : batch_targets b = zeros ++ t :: ts -> zeros <> [] -> (forall u, In u zeros -> no_target u /\ length u = 3%nat) ->
  target_of t k -> (forall u x, In u ts -> In x u -> x <= 1) -> (forall x, In x (batch_logits p b) -> length x = 3%nat) ->
  alignment_accuracy network p b = 0.
Proof.
  intros E Nz Z T H L. unfold alignment_accuracy, mean. rewrite accuracies_flat.
  assert (Zc : no_target (concat zeros)) by (intros x Hx; apply in_concat in Hx; destruct Hx as (u & Hu & Hx); apply (proj1 (Z u Hu)); auto).
  assert (Lz : (3 <= length (concat zeros))%nat) by (destruct zeros as [|u zeros]; [congruence|]; cbn; rewrite app_length, (proj2 (Z u (or_introl eq_refl))); lia).
  assert (M : mask_argmax b = Some (length (concat zeros) + k)%nat).
  { unfold mask_argmax. fold (batch_targets b). rewrite E, concat_app. apply argmax_predicted. cbn [concat].
    assert (F : predicted (t ++ concat ts) k) by (apply first_target; auto; intros y Hy; apply in_concat in Hy; destruct Hy as (u & Hu & Hy); eauto).
    assert (V : nth k (t ++ concat ts) 0 = 1) by (destruct T as [Hk T]; rewrite app_nth1, T by auto; rewrite Nat.eqb_refl; reflexivity).
    destruct F as (F1 & F2 & F3). set (l := t ++ concat ts) in *. split; [rewrite app_length; lia|].
    assert (N0 : forall i, (i < length (concat zeros))%nat -> nth i (concat zeros ++ l) 0 = 0) by (intros i Hi; rewrite app_nth1 by auto; apply Zc; apply nth_In; auto).
    assert (Nk : nth (length (concat zeros) + k) (concat zeros ++ l) 0 = 1) by (rewrite app_nth2 by lia; rewrite Nat.add_comm, Nat.add_sub; exact V). rewrite Nk. split.
    - intros i Hi. destruct (Nat.lt_ge_cases i (length (concat zeros))); [rewrite N0 by auto; lra|]. rewrite app_nth2 by auto. rewrite <- V. apply F2. rewrite app_length in Hi. lia.
    - intros i Hi. destruct (Nat.lt_ge_cases i (length (concat zeros))); [rewrite N0 by auto; lra|]. rewrite app_nth2 by auto. rewrite <- V. apply F3. lia. }
  rewrite M. assert (G : rsum (map (fun x => indicator (same_index (argmax x) (Some (length (concat zeros) + k)%nat))) (batch_logits p b)) = 0); [|rewrite G; unfold Rdiv; ring].
  revert L. generalize (batch_logits p b). clear -Lz. intros l L. induction l as [|x l IH]; [reflexivity|]. cbn [map rsum fold_right]. unfold rsum in IH. rewrite IH by (intros; apply L; right; auto).
  replace (same_index (argmax x) (Some (length (concat zeros) + k)%nat)) with false; [cbn; ring|]. symmetry. destruct (argmax x) as [j|] eqn:Ej; [|reflexivity]. cbn. apply Nat.eqb_neq. apply argmax_predicted in Ej. destruct Ej as [Hj _]. rewrite (L x) in Hj by (left; auto). lia.
Qed.

(** C112: losses and errors of the drift are means of squared and plain distances; the loss to minimise is the sum *)
Theorem drift_losses p b w : 
  drift_error network p b = rsum (map (fun ab => pdist (fst ab) (snd ab)) (batch_drifts p b)) / INR (length (batch_drifts p b)) /\
  drift_loss network p b = rsum (map (fun ab => pdist (fst ab) (snd ab) ^ 2) (batch_drifts p b)) / INR (length (batch_drifts p b)) /\
  total_loss network w false p b = alignment_loss network p b + w * drift_loss network p b /\
  total_loss network w true p b = final_loss network p b + w * final_drift_loss network p b.
Proof.
  assert (F : forall f : pt -> R, concat (map (map f) (drift_differences network p b)) = map (fun ab => f (psub (fst ab) (snd ab))) (batch_drifts p b)).
  { intros f. rewrite <- concat_map. unfold drift_differences, batch_drifts. rewrite <- flat_map_concat_map. rewrite (flat_map_ext _ (fun e => map (fun ab => psub (fst ab) (snd ab)) (combine (ax_drift e) (snd (network p (ax_image e)))))) by (intros; rewrite map2_combine; reflexivity).
    rewrite flat_map_map, map_map. reflexivity. }
  split; [unfold drift_error, mean; rewrite !F, !map_length; reflexivity|]. split; [|split; reflexivity]. unfold drift_loss, mean. rewrite !F, !map_length. f_equal. f_equal. apply map_ext. intros [a c]. cbn [fst snd]. unfold pdist, pnorm. rewrite pow2_sqrt; [reflexivity|]. unfold psq. nra.
Qed.

Lemma single_last (l : list (list R)) : (forall x, In x l -> length x = 1%nat) -> last_of l = concat l.
Proof.
  intros H. induction l as [|x l IH]; [reflexivity|]. unfold last_of in *. cbn [map concat]. rewrite IH by (intros; apply H; right; auto). pose proof (H x (or_introl eq_refl)). destruct x as [|a [|? ?]]; try discriminate. reflexivity.
Qed.
(** C112: with the last step only, what is reported is about the last step; that is everything if there is one *)
Theorem final_step_reported p b : 
  (forall k x, lookup_key (append "final_step_" k) (alignment_outputs network true p b) = Some x -> lookup_key k (alignment_outputs network true p b) = Some x) /\
  ((forall e m, In e b -> In m (ax_mask e) -> length m = 1%nat) -> (forall e, In e b -> length (ax_drift e) = 1%nat) ->
   (forall e l, In e b -> In l (fst (network p (ax_image e))) -> length l = 1%nat) -> (forall e, In e b -> length (snd (network p (ax_image e))) = 1%nat) ->
   alignment_outputs network true p b = alignment_outputs network false p b /\ forall w, total_loss network w true p b = total_loss network w false p b).
Proof.
  split.
  - intros k x. unfold alignment_outputs. set (l := [("final_step_accuracy"%string, _); _; _; _]).
    change l with (prefix_dict_keys "final_step_" [("accuracy"%string, final_accuracy network p b); ("loss"%string, final_loss network p b);
      ("drift_loss"%string, final_drift_loss network p b); ("drift_error"%string, final_drift_error network p b)]). clear l.
    intros H. rewrite lookup_cons in H. change (String.eqb "accuracy" (append "final_step_" k)) with false in H. cbv iota in H.
    rewrite lookup_cons in H. change (String.eqb "loss" (append "final_step_" k)) with false in H. cbv iota in H.
    rewrite lookup_cons in H. change (String.eqb "drift_loss" (append "final_step_" k)) with false in H. cbv iota in H.
    rewrite lookup_cons in H. change (String.eqb "drift_error" (append "final_step_" k)) with false in H. cbv iota in H.
    rewrite lookup_prefix in H. rewrite !lookup_cons in H. rewrite !lookup_cons.
    destruct (String.eqb "accuracy" k); [auto|]. destruct (String.eqb "loss" k); [auto|]. destruct (String.eqb "drift_loss" k); [auto|]. destruct (String.eqb "drift_error" k); [auto|discriminate].
  - intros H1 H2 H3 H4.
    assert (L : forall A B C (f : A -> B -> C) l m, length (map2 f l m) = Nat.min (length l) (length m)) by (intros A B C f l; induction l; intros [|? ?]; cbn; auto).
    assert (P1 : last_of (pixel_losses network p b) = concat (pixel_losses network p b)).
    { apply single_last. intros x Hx. unfold pixel_losses in Hx. apply in_flat_map in Hx. destruct Hx as (e & He & Hx). rewrite map2_combine in Hx. apply in_map_iff in Hx. destruct Hx as ([l m] & <- & Hlm). cbn [fst snd]. rewrite L.
      rewrite (H3 e l He (in_combine_l _ _ _ _ Hlm)), (H1 e m He (in_combine_r _ _ _ _ Hlm)). reflexivity. }
    assert (P2 : forall f : pt -> R, last_of (map (map f) (drift_differences network p b)) = concat (map (map f) (drift_differences network p b))).
    { intros f. apply single_last. intros x Hx. unfold drift_differences in Hx. rewrite map_map in Hx. apply in_map_iff in Hx. destruct Hx as (e & <- & He). rewrite map_length, L, (H2 e He), (H4 e He). reflexivity. }
    assert (P3 : last_of (accuracies network p b) = concat (accuracies network p b)).
    { apply single_last. intros x Hx. unfold accuracies in Hx. apply in_flat_map in Hx. destruct Hx as (e & He & Hx). apply in_map_iff in Hx. destruct Hx as (l & <- & Hl). rewrite map_length. eauto. }
    unfold alignment_outputs, total_loss, final_loss, alignment_loss, final_drift_loss, drift_loss, final_accuracy, alignment_accuracy, final_drift_error, drift_error. rewrite P1, !P2, P3. split; reflexivity.
Qed.
(** logits and targets of every pixel, at all times *)
Definition pixel_series (p : Params) (b : batch) : list (list (list R) * list (list R)) := flat_map (fun e => combine (fst (network p (ax_image e))) (ax_mask e)) b.
Lemma last_map2 {A B} (f : A -> B -> R) l : forall m x y, length l = length m -> l <> [] -> last (map2 f l m) 0 = f (last l x) (last m y).
Proof.
  induction l as [|a l IH]; intros [|c m] x y L N; try congruence; try discriminate. cbn [map2]. destruct l as [|a' l], m as [|c' m]; try discriminate; [reflexivity|].
  cbn [length] in L. specialize (IH (c' :: m) x y ltac:(cbn; lia) ltac:(discriminate)). cbn [map2] in *. exact IH.
Qed.
(** C112: the loss is the mean over all pixels and times, or over all pixels at the last time *)
Theorem alignment_losses p b :
  alignment_loss network p b = mean (map (fun xt => softmax_cross_entropy (fst xt) (snd xt)) (flat_map (fun s => combine (fst s) (snd s)) (pixel_series p b))) /\
  ((forall s, In s (pixel_series p b) -> length (fst s) = length (snd s) /\ fst s <> []) ->
   final_loss network p b = mean (map (fun s => softmax_cross_entropy (last (fst s) []) (last (snd s) [])) (pixel_series p b))) /\
  (forall final, lookup_key "loss" (alignment_outputs network final p b) = Some (if final then final_loss network p b else alignment_loss network p b) /\
    lookup_key "drift_loss" (alignment_outputs network final p b) = Some (if final then final_drift_loss network p b else drift_loss network p b) /\
    lookup_key "drift_error" (alignment_outputs network final p b) = Some (if final then final_drift_error network p b else drift_error network p b) /\
    lookup_key "accuracy" (alignment_outputs network final p b) = Some (if final then final_accuracy network p b else alignment_accuracy network p b)).
Proof.
  assert (E : pixel_losses network p b = map (fun s => map2 softmax_cross_entropy (fst s) (snd s)) (pixel_series p b)).
  { unfold pixel_losses, pixel_series. rewrite <- flat_map_map. apply flat_map_ext. intros e. rewrite map2_combine. reflexivity. }
  split; [|split].
  - unfold alignment_loss. rewrite E. f_equal. rewrite <- flat_map_concat_map, <- flat_map_map. apply flat_map_ext. intros s. rewrite map2_combine. reflexivity.
  - intros H. unfold final_loss, last_of. rewrite E, map_map. f_equal. apply map_ext_in. intros s Hs. destruct (H s Hs). apply last_map2; auto.
  - intros final. repeat split; reflexivity.
Qed.
End Alignment.
Print Assumptions epoch_averages.
Print Assumptions detection_epoch_averages.
Print Assumptions metrics_forgotten.
Print Assumptions pixel_loss.
Print Assumptions detection_batch.
Print Assumptions reported_accuracy.
Print Assumptions alignment_accuracy_refuted.
Print Assumptions alignment_accuracy_zero.
Print Assumptions drift_losses.
Print Assumptions final_step_reported.
Print Assumptions alignment_losses.

(** perfect predictions for two pixels, of different classes *)
Definition ex_network (p : unit) (image : list (list R)) : list (list (list R)) * list pt := (map (fun x => [x]) image, [mkpt 1 2]).
Definition ex_batch : @abatch (list (list R)) := [mkexample [[0; 0; 1]; [0; 1; 0]] [[[0; 0; 1]]; [[0; 1; 0]]] [mkpt 1 2]].
Example learning_steps_nonvacuous :
  counts correct [([0; 0; 1], [0; 0; 1]); ([1; 0; 0], [0; 1; 0])] 1 /\
  batch_targets ex_batch = [0; 0; 1] :: [[0; 1; 0]] /\ target_of [0; 0; 1] 2 /\
  counts (fun x => predicted x 2) (batch_logits ex_network tt ex_batch) 1 /\
  alignment_accuracy ex_network tt ex_batch = 1 / 2 /\ drift_error ex_network tt ex_batch = 0.
Proof.
  assert (P2 : predicted [0; 0; 1] 2) by (split; [cbn; lia|]; split; intros [|[|[|i]]] Hi; cbn in *; try lra; lia).
  assert (P1 : predicted [0; 1; 0] 1) by (split; [cbn; lia|]; split; intros [|[|[|i]]] Hi; cbn in *; try lra; lia).
  assert (P0 : predicted [1; 0; 0] 0) by (split; [cbn; lia|]; split; intros [|[|[|i]]] Hi; cbn in *; try lra; lia).
  assert (U : forall x i j, predicted x i -> predicted x j -> i = j) by (intros x i j A B; apply argmax_predicted in A, B; congruence).
  assert (T : target_of [0; 0; 1] 2) by (split; [cbn; lia|]; intros [|[|[|i]]] Hi; cbn in *; try lra; lia).
  assert (C : counts (fun x => predicted x 2) (batch_logits ex_network tt ex_batch) 1).
  { constructor; [exact P2|]. constructor; [|constructor]. intros H. pose proof (U _ _ _ P1 H). discriminate. }
  split.
  { constructor; [exists 2%nat; auto|]. constructor; [|constructor]. intros (k & A & B). cbn in A, B. pose proof (U _ _ _ A P0). pose proof (U _ _ _ B P1). lia. }
  split; [reflexivity|]. split; [exact T|]. split; [exact C|]. split.
  - rewrite (alignment_accuracy_refuted ex_network tt ex_batch [0; 0; 1] [[0; 1; 0]] 2 1); [cbn; lra|reflexivity|exact T| |exact C].
    intros u x [<-|[]] [<-|[<-|[<-|[]]]]; lra.
  - unfold drift_error, mean. cbn. unfold pnorm, psq, psub. cbn. replace ((1 - 1) * (1 - 1) + (2 - 2) * (2 - 2)) with 0 by ring. rewrite sqrt_0. field.
Qed.
