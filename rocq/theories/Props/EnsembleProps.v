(** C89: the rates an ensemble predicts *)
From Coq Require Import Reals ZArith List Bool Arith Lia Lra.
From Verif Require Import Base.Prelude Model.DataUtils Model.LearnRates Spec.WaitingTimes Spec.Networks Proofs.BaseFacts Proofs.ClumpFacts
  Proofs.LossFacts Proofs.RateFacts Proofs.MaterialFacts Props.AugmentProps.
Import ListNotations.
Open Scope R_scope.

Lemma softplus_pos x : 0 < softplus x.
Proof. unfold softplus. rewrite <- ln_1. apply ln_increasing; [lra|]. pose proof (exp_pos x). lra. Qed.

(** C89: the network, not training *)
Theorem mlp_evaluates {P ST K} (ly : layers P ST K) n batchnorm dropout : layers_ok n ly ->
  evaluates n (call_mlp _ _ _ ly batchnorm dropout).
Proof.
  intros LO. set (f := call_mlp _ _ _ ly batchnorm dropout).
  assert (E : forall p s (k : K) x, exists x', length x' = length x /\ (forall k, f p s k x false = fmap_res (fun out => (map (map softplus) out, s)) (ly_mlp _ _ _ ly p 0 k x'))).
  { intros p s k x. unfold f, call_mlp. destruct batchnorm.
    - exists (fst (ly_normalize _ _ _ ly p s x false)). split; [apply (lo_rows _ _ LO)|]. intros k'. pose proof (lo_state _ _ LO p s x) as Es.
      destruct (ly_normalize _ _ _ ly p s x false) as [x' s']. cbn in *. subst. destruct (ly_mlp _ _ _ ly p 0 k' x'); auto.
    - exists x. split; auto. }
  constructor.
  - intros p s k x r s' H. destruct (E p s k x) as (x' & _ & Ex). rewrite Ex in H. destruct (ly_mlp _ _ _ ly p 0 k x'); cbn in H; congruence.
  - intros p s k k' x. destruct (E p s k x) as (x' & _ & Ex). rewrite !Ex, (lo_key _ _ LO p k k'). auto.
  - intros p s k x r s' H. destruct (E p s k x) as (x' & L & Ex). rewrite Ex in H. destruct (ly_mlp _ _ _ ly p 0 k x') as [out|e|] eqn:Eo; cbn in H; try discriminate.
    injection H as <- _. rewrite map_length. apply (lo_shape _ _ LO) in Eo. destruct Eo. congruence.
  - intros p s k x r s' row H Hr. destruct (E p s k x) as (x' & L & Ex). rewrite Ex in H. destruct (ly_mlp _ _ _ ly p 0 k x') as [out|e|] eqn:Eo; cbn in H; try discriminate.
    injection H as <- _. apply in_map_iff in Hr. destruct Hr as (r0 & <- & Hr). apply (lo_shape _ _ LO) in Eo. destruct Eo as [_ Sh]. specialize (Sh _ Hr).
    assert (Nr : map softplus r0 <> []) by (destruct r0; discriminate).
    exists (last (map softplus r0) 0), (removelast (map softplus r0)). split; [apply app_removelast_last; auto|].
    assert (Ap : map softplus r0 = removelast (map softplus r0) ++ [last (map softplus r0) 0]) by (apply app_removelast_last; auto).
    assert (Po : forall y, In y (map softplus r0) -> 0 < y) by (intros y Hy; apply in_map_iff in Hy; destruct Hy as (z & <- & _); apply softplus_pos).
    revert Ap. generalize (removelast (map softplus r0)) (last (map softplus r0) 0). intros c t Ap. split; [|split].
    + pose proof (f_equal (@length R) Ap) as La. rewrite app_length, map_length in La. cbn [length] in La. lia.
    + apply Po. rewrite Ap. apply in_or_app. right. left. auto.
    + intros y Hy. apply Po. rewrite Ap. apply in_or_app. left. auto.
Qed.
Print Assumptions mlp_evaluates.

(** * averages *)
Definition entry (o : list (list R)) (j i : nat) : R := nth i (nth j o []) 0.
Definition shaped (m n : nat) (o : list (list R)) : Prop := length o = m /\ forall j, (j < m)%nat -> length (nth j o []) = n.
Lemma nth_map_in {A B} (f : A -> B) l d d' i : (i < length l)%nat -> nth i (map f l) d' = f (nth i l d).
Proof. intros H. rewrite (nth_indep (map f l) d' (f d)) by (rewrite map_length; auto). apply map_nth. Qed.
Lemma combine_nth_in {A B} (a : list A) (b : list B) da db i : (i < length a)%nat -> length a = length b -> forall d, nth i (combine a b) d = (nth i a da, nth i b db).
Proof. intros Hi L d. rewrite (nth_indep _ d (da, db)) by (rewrite combine_length, L, Nat.min_id; lia). apply combine_nth. auto. Qed.
Lemma add_shaped m n a b : shaped m n a -> shaped m n b -> shaped m n (add_rows a b) /\
  forall j i, (j < m)%nat -> (i < n)%nat -> entry (add_rows a b) j i = entry a j i + entry b j i.
Proof.
  intros [La Ra] [Lb Rb]. unfold add_rows.
  assert (N : forall j, (j < m)%nat -> nth j (map (fun ab => map (fun xy => fst xy + snd xy) (combine (fst ab) (snd ab))) (combine a b)) [] =
    map (fun xy => fst xy + snd xy) (combine (nth j a []) (nth j b []))).
  { intros j Hj. rewrite (nth_map_in _ _ ([], [])) by (rewrite combine_length; lia). rewrite (combine_nth_in _ _ [] []) by lia. auto. }
  split.
  - split; [rewrite map_length, combine_length; lia|]. intros j Hj. rewrite N by auto. rewrite map_length, combine_length, Ra, Rb by auto. lia.
  - intros j i Hj Hi. unfold entry. rewrite N by auto. rewrite (nth_map_in _ _ (0, 0)) by (rewrite combine_length, Ra, Rb by auto; lia).
    rewrite (combine_nth_in _ _ 0 0) by (rewrite ?Ra, ?Rb by auto; auto). auto.
Qed.
Lemma fold_shaped m n l : forall a, shaped m n a -> (forall o, In o l -> shaped m n o) -> shaped m n (fold_left add_rows l a) /\
  forall j i, (j < m)%nat -> (i < n)%nat -> entry (fold_left add_rows l a) j i = entry a j i + rsum (map (fun o => entry o j i) l).
Proof.
  induction l as [|b l IH]; intros a Sa H; cbn [fold_left].
  - split; auto. intros. cbn. unfold rsum. cbn. ring.
  - destruct (add_shaped m n a b Sa (H b (or_introl eq_refl))) as [Sab Eab]. destruct (IH (add_rows a b) Sab (fun o Ho => H o (or_intror Ho))) as [S1 E1].
    split; auto. intros j i Hj Hi. rewrite E1, Eab by auto. cbn. unfold rsum. cbn. ring.
Qed.
Lemma mean_shaped m n l : l <> [] -> (forall o, In o l -> shaped m n o) -> shaped m n (mean_rows l) /\
  forall j i, (j < m)%nat -> (i < n)%nat -> entry (mean_rows l) j i = mean (map (fun o => entry o j i) l).
Proof.
  destruct l as [|a l]; [congruence|]. intros _ H. destruct (fold_shaped m n l a (H a (or_introl eq_refl)) (fun o Ho => H o (or_intror Ho))) as [[L R1] E].
  unfold mean_rows. set (s := fold_left add_rows l a) in *. set (k := INR (length (a :: l))).
  assert (N : forall j, (j < m)%nat -> nth j (map (map (fun x => x / k)) s) [] = map (fun x => x / k) (nth j s [])) by (intros j Hj; apply nth_map_in; lia).
  split.
  - split; [rewrite map_length; auto|]. intros j Hj. rewrite N, map_length by auto. auto.
  - intros j i Hj Hi. unfold entry at 1. rewrite N by auto. rewrite (nth_map_in _ _ 0) by (rewrite R1; auto). fold (entry s j i). rewrite E by auto.
    unfold mean. rewrite map_length. fold k. cbn. unfold rsum. auto.
Qed.

Lemma per_neighbor_output total c : c <> [] -> exists w, weights_of c w /\ per_neighbor (output total c) = map (fun p => total * p) w.
Proof. intros N. exists (softmax c). split; [apply softmax_weights; auto|]. unfold per_neighbor. rewrite total_output, choices_output. auto. Qed.
Lemma weights_length c w : weights_of c w -> length w = length c.
Proof. intros (_ & k & _ & F). apply weights_map in F. subst. apply map_length. Qed.

(** C89: these rates, as independent clocks, make happen what the loss was computed for *)
Theorem rates_give_outcomes total c w t : weights_of c w -> 0 < total ->
  let rates := per_neighbor (output total c) in
  Forall2 (fun p r => r = total * p) w rates /\ rsum rates = total /\ (forall r, In r rates -> 0 < r) /\
  outcomes total w t = exp (- (rsum rates * t)) :: map (fun r => (1 - exp (- (rsum rates * t))) * (r / rsum rates)) rates.
Proof.
  intros W T. destruct (weights_unique _ _ W) as [N Ew]. cbn zeta. unfold per_neighbor. rewrite total_output, choices_output, <- Ew.
  assert (Sr : rsum (map (fun w => total * w) w) = total) by (rewrite (rsum_scale (fun x => x)), map_id, (proj1 W); ring).
  rewrite Sr. split; [|split; [auto|split]].
  - clear. induction w; cbn; constructor; auto.
  - intros r Hr. apply in_map_iff in Hr. destruct Hr as (x & <- & Hx). apply Rmult_lt_0_compat; auto. eapply weights_pos; eauto.
  - unfold outcomes. f_equal. rewrite map_map. apply map_ext. intros x. f_equal. field. lra.
Qed.
Print Assumptions rates_give_outcomes.

Section Ensemble.
Context {P ST K : Type}.
Variable split : K -> nat -> list K.
Variable f : apply_type P ST K.
Variable n : nat.
Hypothesis n_pos : (0 < n)%nat.
Hypothesis F : evaluates n f.

(** outs are the outputs of the models *)
Definition model_outputs (params : list P) (states : list ST) (x : list (list R)) (outs : list (list (list R))) : Prop :=
  Forall2 (fun ps out => forall k, exists s', f (fst ps) (snd ps) k x false = Ok (out, s')) (combine params states) outs.

Lemma batch_apply_outputs params states x k outs : batch_apply _ _ _ f params states x k false = Ok outs <-> model_outputs params states x outs.
Proof.
  unfold batch_apply, model_outputs. rewrite map_res_Ok. split; intros H; induction H as [|ps out l l' E _ IH]; constructor; auto.
  - intros k'. rewrite (ev_key _ _ F _ _ k' k). destruct (f (fst ps) (snd ps) k x false) as [[r s']|e|]; try discriminate. cbn in E. injection E as <-. eauto.
  - destruct (E k) as (s' & ->). auto.
Qed.
Lemma outputs_in params states x outs o (k : K) : model_outputs params states x outs -> In o outs -> exists p s s', f p s k x false = Ok (o, s').
Proof.
  intros H. unfold model_outputs in H. induction H as [|ps out l l' E _ IH]; intros Ho; [destruct Ho|]. destruct Ho as [<-|Ho]; [|auto].
  destruct (E k) as (s' & Es). eauto.
Qed.
(** total and weights that an output gives for the j-th input *)
Definition model_at (j : nat) (out : list (list R)) (tw : R * list R) : Prop :=
  exists c, nth j out [] = output (fst tw) c /\ length c = n /\ 0 < fst tw /\ weights_of c (snd tw).

Lemma output_shaped p s k x o s' : f p s k x false = Ok (o, s') ->
  shaped (length x) n (map per_neighbor o) /\
  forall j, (j < length x)%nat -> exists tw, model_at j o tw /\ nth j (map per_neighbor o) [] = map (fun w => fst tw * w) (snd tw).
Proof.
  intros H. pose proof (ev_rows _ _ F _ _ _ _ _ _ H) as L.
  assert (Q : forall j, (j < length x)%nat -> exists tw, model_at j o tw /\ nth j (map per_neighbor o) [] = map (fun w => fst tw * w) (snd tw)).
  { intros j Hj. destruct (ev_outputs _ _ F _ _ _ _ _ _ (nth j o []) H) as (total & c & E & Lc & Tp & _); [apply nth_In; lia|].
    destruct (per_neighbor_output total c) as (w & W & Ew); [destruct c; cbn in Lc; [lia|discriminate]|].
    exists (total, w). split; [exists c; auto|]. rewrite (nth_map_in per_neighbor o []) by lia. rewrite E. auto. }
  split; auto. split; [rewrite map_length; auto|]. intros j Hj. destruct (Q j Hj) as (tw & (c & _ & Lc & _ & W) & ->). rewrite map_length, (weights_length _ _ W). auto.
Qed.

Lemma rsum_seq_nth (l : list R) : rsum l = rsum (map (fun i => nth i l 0) (seq 0 (length l))).
Proof.
  f_equal. apply nth_error_ext'. intros i. rewrite nth_error_map. destruct (lt_dec i (length l)) as [Hi|Hi].
  - rewrite (nth_error_nth' (seq 0 (length l)) 0%nat) by (rewrite seq_length; auto). rewrite seq_nth by auto. cbn. apply nth_error_nth'. auto.
  - rewrite (proj2 (nth_error_None l i)) by lia. rewrite (proj2 (nth_error_None (seq 0 (length l)) i)) by (rewrite seq_length; lia). auto.
Qed.
Lemma rsum_swap {A B} (g : A -> B -> R) la lb : rsum (map (fun a => rsum (map (g a) lb)) la) = rsum (map (fun b => rsum (map (fun a => g a b) la)) lb).
Proof.
  induction la as [|a la IH]; cbn.
  - induction lb as [|b lb IHb]; cbn; unfold rsum in *; cbn in *; auto. rewrite <- IHb. lra.
  - change (rsum (map (g a) lb) + rsum (map (fun a0 => rsum (map (g a0) lb)) la) = rsum (map (fun b => g a b + rsum (map (fun a0 => g a0 b) la)) lb)).
    rewrite IH. rewrite rsum_map_plus. auto.
Qed.

Definition sized (p : predictor P ST K) : Prop := length (p_params _ _ _ p) = length (p_states _ _ _ p) /\ p_params _ _ _ p <> [].

(** C89: the ensemble's rates *)
Theorem ensemble_rates p x key rows p' : sized p -> apply_model _ _ _ split f p x key None = (Ok rows, p') ->
  exists outs, model_outputs (p_params _ _ _ p) (p_states _ _ _ p) x outs /\ length outs = length (p_params _ _ _ p) /\ length rows = length x /\
    forall j row, nth_error rows j = Some row ->
      length row = n /\ (forall r, In r row -> 0 < r) /\
      exists tws, Forall2 (model_at j) outs tws /\ rsum row = mean (map fst tws) /\
        forall i, (i < n)%nat -> nth i row 0 = mean (map (fun tw => fst tw * nth i (snd tw) 0) tws).
Proof.
  intros [Ls Np] H. unfold apply_model in H.
  set (kp := match key with Some k => (k, p) | None => _ end) in H.
  assert (Ek : exists k, kp = (k, snd kp) /\ p_params _ _ _ (snd kp) = p_params _ _ _ p /\ p_states _ _ _ (snd kp) = p_states _ _ _ p).
  { unfold kp. destruct key; cbn; eauto. }
  destruct Ek as (k & E1 & E2 & E3). rewrite E1, E2, E3 in H.
  destruct (batch_apply _ _ _ f (p_params _ _ _ p) (p_states _ _ _ p) x k false) as [outs|e|] eqn:Eo; cbn in H; try discriminate.
  injection H as <- _. apply batch_apply_outputs in Eo. exists outs. split; [auto|].
  assert (Lo : length outs = length (p_params _ _ _ p)).
  { apply Forall2_len in Eo. rewrite <- Eo, combine_length. lia. }
  split; [auto|].
  assert (Sh : forall o, In o (map (map per_neighbor) outs) -> shaped (length x) n o).
  { intros o Ho. apply in_map_iff in Ho. destruct Ho as (o0 & <- & Ho). destruct (outputs_in _ _ _ _ _ k Eo Ho) as (q & s & s' & Hf). apply (output_shaped _ _ _ _ _ _ Hf). }
  assert (No : map (map per_neighbor) outs <> []) by (destruct outs; cbn in *; [destruct (p_params _ _ _ p); [congruence|discriminate]|discriminate]).
  destruct (mean_shaped (length x) n _ No Sh) as [[Lm Rm] Em]. split; [auto|].
  intros j row Hrow. assert (Hj : (j < length x)%nat) by (rewrite <- Lm; apply nth_error_Some; congruence).
  assert (Er : row = nth j (mean_rows (map (map per_neighbor) outs)) []) by (symmetry; apply nth_error_nth; auto).
  assert (Lr : length row = n) by (rewrite Er; auto).
  assert (Tw : exists tws, Forall2 (fun o tw => model_at j o tw /\ nth j (map per_neighbor o) [] = map (fun w => fst tw * w) (snd tw)) outs tws).
  { assert (A : forall o, In o outs -> exists tw, model_at j o tw /\ nth j (map per_neighbor o) [] = map (fun w => fst tw * w) (snd tw)).
    { intros o Ho. destruct (outputs_in _ _ _ _ _ k Eo Ho) as (q & s & s' & Hf). apply (proj2 (output_shaped _ _ _ _ _ _ Hf)). auto. }
    clear - A. induction outs as [|o outs IH]; [exists []; auto|]. destruct IH as (tws & T); [intros; apply A; right; auto|]. destruct (A o (or_introl eq_refl)) as (tw & Q). exists (tw :: tws). constructor; auto. }
  destruct Tw as (tws & Tw).
  assert (Ei : forall i, (i < n)%nat -> nth i row 0 = mean (map (fun tw => fst tw * nth i (snd tw) 0) tws)).
  { intros i Hi. rewrite Er. change (nth i (nth j (mean_rows (map (map per_neighbor) outs)) []) 0) with (entry (mean_rows (map (map per_neighbor) outs)) j i). rewrite Em by auto. f_equal. rewrite map_map.
    clear - Tw Hi F. induction Tw as [|o tw l l' [(c & E & Lc & _ & W) E'] _ IH]; cbn; auto. f_equal; auto. unfold entry. rewrite E'. apply nth_map_in. rewrite (weights_length _ _ W). lia. }
  assert (Ms : forall tw, In tw tws -> 0 < fst tw /\ rsum (snd tw) = 1 /\ length (snd tw) = n /\ forall w, In w (snd tw) -> 0 < w).
  { clear - Tw. induction Tw as [|o tw l l' [(c & E & Lc & Tp & W) E'] _ IH]; intros t Ht; [destruct Ht|]. destruct Ht as [<-|Ht]; [|auto].
    split; [auto|]. split; [apply W|]. split; [rewrite (weights_length _ _ W); auto|]. intros w Hw. eapply weights_pos; eauto. }
  assert (Lt : (0 < length tws)%nat).
  { apply Forall2_len in Tw. rewrite <- Tw, Lo. destruct (p_params _ _ _ p); [congruence|cbn; lia]. }
  split; [auto|]. split.
  - intros r Hr. apply In_nth with (d := 0) in Hr. destruct Hr as (i & Hi & <-). rewrite Ei by lia. unfold mean. rewrite map_length. apply Rdiv_lt_0_compat; [|apply lt_0_INR; auto].
    assert (Hi' : (i < n)%nat) by lia. clear - Ms Lt Hi'. destruct tws as [|tw tws]; [cbn in Lt; lia|]. cbn. unfold rsum. cbn. fold (rsum (map (fun tw => fst tw * nth i (snd tw) 0) tws)).
    assert (Q : forall tw', In tw' (tw :: tws) -> 0 < fst tw' * nth i (snd tw') 0).
    { intros tw' Ht. destruct (Ms tw' Ht) as (A & _ & B & C). apply Rmult_lt_0_compat; auto. apply C. apply nth_In. lia. }
    apply Rplus_lt_le_0_compat; [apply Q; left; auto|]. apply rsum_nonneg. intros y Hy. apply in_map_iff in Hy. destruct Hy as (z & <- & Hz). left. apply Q. right. auto.
  - exists tws. split; [|split].
    + clear - Tw. induction Tw as [|? ? ? ? [? ?] ? ?]; constructor; auto.
    + rewrite rsum_seq_nth, Lr. rewrite (map_ext_in _ (fun i => mean (map (fun tw => fst tw * nth i (snd tw) 0) tws))) by (intros i Hi; apply in_seq in Hi; apply Ei; lia).
      unfold mean. rewrite map_length. unfold Rdiv.
      rewrite (map_ext _ (fun i => / INR (length tws) * rsum (map (fun tw => fst tw * nth i (snd tw) 0) tws))) by (intros; rewrite map_length; ring).
      rewrite (rsum_scale (fun i => rsum (map (fun tw => fst tw * nth i (snd tw) 0) tws))). rewrite Rmult_comm. f_equal.
      rewrite (rsum_swap (fun i tw => fst tw * nth i (snd tw) 0)). f_equal. apply map_ext_in. intros tw Ht. destruct (Ms tw Ht) as (_ & B & C & _).
      rewrite (rsum_scale (fun i => nth i (snd tw) 0)). rewrite <- C, <- rsum_seq_nth, B. ring.
    + auto.
Qed.

(** C89: the key does not matter, and only a missing one is drawn *)
Theorem ensemble_deterministic p x key key' index :
  fst (apply_model _ _ _ split f p x key index) = fst (apply_model _ _ _ split f p x key' index) /\
  (forall k, key = Some k -> snd (apply_model _ _ _ split f p x key index) = p) /\
  (key = None -> let p' := snd (apply_model _ _ _ split f p x key index) in
     p_params _ _ _ p' = p_params _ _ _ p /\ p_states _ _ _ p' = p_states _ _ _ p /\ p_rng _ _ _ p' = nth 1 (split (p_rng _ _ _ p) 2) (p_rng _ _ _ p) /\
     p_num_models _ _ _ p' = p_num_models _ _ _ p /\ p_context_dim _ _ _ p' = p_context_dim _ _ _ p /\
     p_config _ _ _ p' = p_config _ _ _ p /\ p_packaged _ _ _ p' = p_packaged _ _ _ p).
Proof.
  split; [|split].
  - assert (B : forall k k', batch_apply _ _ _ f (p_params _ _ _ p) (p_states _ _ _ p) x k false = batch_apply _ _ _ f (p_params _ _ _ p) (p_states _ _ _ p) x k' false).
    { intros k k'. unfold batch_apply. induction (combine (p_params _ _ _ p) (p_states _ _ _ p)) as [|ps l IH]; cbn; auto. rewrite (ev_key _ _ F _ _ k k'), IH. auto. }
    unfold apply_model. destruct index as [i|].
    + assert (C : forall k k' q s, f q s k x false = f q s k' x false) by (intros; apply (ev_key _ _ F)).
      destruct key as [k|], key' as [k'|]; cbn [fst p_params p_states]; destruct (p_params _ _ _ p), (p_states _ _ _ p); auto;
      match goal with |- fmap_res _ (fmap_res _ (f _ _ ?a x false)) = fmap_res _ (fmap_res _ (f _ _ ?b x false)) => try rewrite (C a b) end; auto.
    + destruct key as [k|], key' as [k'|]; cbn [fst p_params p_states]; match goal with |- fmap_res _ (batch_apply _ _ _ _ _ _ _ ?a _) = fmap_res _ (batch_apply _ _ _ _ _ _ _ ?b _) => try rewrite (B a b) end; auto.
  - intros k ->. unfold apply_model. cbn. auto.
  - intros ->. unfold apply_model. cbn. repeat split.
Qed.

(** C89: one model's rates *)
Theorem single_model_rates p x k i q s : nth_error (p_params _ _ _ p) i = Some q -> nth_error (p_states _ _ _ p) i = Some s ->
  apply_model _ _ _ split f p x (Some k) (Some (Z.of_nat i)) =
    (fmap_res (fun r => map per_neighbor (fst r)) (f q s k x false), p).
Proof.
  intros Hq Hs. unfold apply_model. cbn. destruct (p_params _ _ _ p) as [|p0 ps] eqn:Ep; [destruct i; discriminate|].
  destruct (p_states _ _ _ p) as [|s0 ss] eqn:Es; [destruct i; discriminate|].
  replace (Z.of_nat i) with (Z.of_nat (S i) - 1)%Z by lia. rewrite (jnp_index_in _ i q) by auto. rewrite (jnp_index_in _ i s) by auto. f_equal.
  destruct (f q s k x false) as [[r s']|e|]; cbn; auto. f_equal. rewrite <- (map_id (map per_neighbor r)) at 2. apply map_ext. intros row.
  rewrite <- (map_id row) at 2. apply map_ext. intros. field.
Qed.
End Ensemble.
Print Assumptions ensemble_rates.
Print Assumptions ensemble_deterministic.
Print Assumptions single_model_rates.

(** C89: two models for one neighbour score more or less *)
Definition ex_layers : layers R unit unit := mklayers R unit unit
  (fun _ s x _ => (x, s)) (fun p d k x => Ok (map (fun r => [p; 0; match r with a :: _ => a | [] => 0 end]) x)) (fun _ _ => (0, tt)).
Definition ex_net := call_mlp R unit unit ex_layers true 0.
Definition ex_cf : config := mkconfig 2 false false 1 1 1 1 false 0.
Definition ex_pred : predictor R unit unit := mkpredictor R unit unit [0; 1] [tt; tt] tt 2 1 ex_cf None.
Example ensemble_nonvacuous : evaluates 2 ex_net /\ sized ex_pred /\
  exists rows, fst (apply_model R unit unit (fun k n => repeat k n) ex_net ex_pred [[3]] None None) = Ok rows.
Proof.
  split; [|split].
  - apply mlp_evaluates. constructor; cbn; auto. intros p d k x out E. injection E as <-. rewrite map_length. split; auto. intros r Hr. apply in_map_iff in Hr. destruct Hr as (y & <- & _). auto.
  - split; [auto|discriminate].
  - eexists. reflexivity.
Qed.
