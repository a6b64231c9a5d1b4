(** C93: ensembles: training them, and distilling them into one model *)
From Coq Require Import Reals ZArith List Bool Arith Lia Lra Permutation.
From Verif Require Import Base.Prelude Model.DataUtils Model.MicroscopeUtils Model.LearnRates Spec.WaitingTimes Spec.Networks
  Proofs.BaseFacts Proofs.ClumpFacts Proofs.LossFacts Proofs.MaterialFacts Props.AugmentProps Props.EnsembleProps.
Import ListNotations.
Open Scope R_scope.

Lemma rsum_zero l : (forall x, In x l -> 0 <= x) -> (rsum l = 0 <-> forall x, In x l -> x = 0).
Proof.
  induction l as [|a l IH]; intros H; [split; [intros _ x []|auto]|].
  change (rsum (a :: l)) with (a + rsum l). assert (0 <= rsum l) by (apply rsum_nonneg; intros; apply H; right; auto). assert (0 <= a) by (apply H; left; auto). split.
  - intros E x [<-|Hx]; [lra|]. apply IH; auto; [intros; apply H; right; auto|lra].
  - intros E. rewrite (E a (or_introl eq_refl)). rewrite (proj2 (IH (fun x Hx => H x (or_intror Hx)))); [lra|]. intros; apply E; right; auto.
Qed.
Lemma squared_error_nonneg a b : 0 <= squared_error a b.
Proof. apply rsum_nonneg. intros x Hx. apply in_map_iff in Hx. destruct Hx as (y & <- & _). apply Rle_0_sqr. Qed.
Lemma squared_error_zero a : forall b, length a = length b -> (squared_error a b = 0 <-> a = b).
Proof.
  unfold squared_error. intros b L. rewrite rsum_zero by (intros x Hx; apply in_map_iff in Hx; destruct Hx as (y & <- & _); apply Rle_0_sqr).
  revert b L. induction a as [|x a IH]; intros [|y b] L; try discriminate; [split; [auto|intros _ z []]|]. cbn in L. injection L as L. split.
  - intros H. f_equal.
    + assert ((x - y) * (x - y) = 0) by (apply H; left; auto). apply Rsqr_0_uniq in H0. lra.
    + apply IH; auto. intros z Hz. apply H. right. auto.
  - intros E z Hz. injection E as <- E. destruct Hz as [<-|Hz]; [cbn; ring|]. apply (proj2 (IH b L) E). auto.
Qed.

Lemma combine_nth_error {A B} (a : list A) : forall (b : list B) i x y, nth_error a i = Some x -> nth_error b i = Some y -> nth_error (combine a b) i = Some (x, y).
Proof. induction a as [|u a IH]; intros [|v b] [|i] x y H1 H2; cbn in *; try discriminate; [congruence|auto]. Qed.

Section Ensembles.
Context {P ST OS K : Type}.
Variable split : K -> nat -> list K.
Variable optimize : (P -> res R) -> P -> OS -> res (P * OS).
Variable permutation : K -> nat -> list nat.
Variable ly : layers P ST K.
Variable f : apply_type P ST K.
Variable opt_init : P -> OS.
Variable normals : K -> nat -> nat -> list (list R).
Hypothesis splits : forall k n, length (split k n) = n.
Notation params := (p_params P ST K).
Notation states := (p_states P ST K).

(** * training *)
Lemma zip3_ok {A B C D} (g : A -> B -> C -> res D) a : forall b c out, zip3_res g a b c = Ok out -> length b = length a -> length c = length a ->
  length out = length a /\ forall i x y z, nth_error a i = Some x -> nth_error b i = Some y -> nth_error c i = Some z -> exists d, nth_error out i = Some d /\ g x y z = Ok d.
Proof.
  induction a as [|x a IH]; intros b c out H Lb Lc; destruct b as [|y b], c as [|z c]; try discriminate; cbn in H.
  - injection H as <-. split; auto. intros [|i]; discriminate.
  - destruct (g x y z) as [d|e|] eqn:Eg; cbn in H; try discriminate. destruct (zip3_res g a b c) as [ds|e|] eqn:Ez; cbn in H; try discriminate. injection H as <-.
    destruct (IH _ _ _ Ez) as [L N]; [cbn in *; congruence|cbn in *; congruence|]. split; [cbn; congruence|]. intros [|i] x' y' z'; cbn; [|apply N].
    intros E1 E2 E3. injection E1 as <-. injection E2 as <-. injection E3 as <-. eauto.
Qed.

(** C93: after training, the i-th model is what training a fresh network on the i-th dataset gives *)
Theorem ensemble_training dr p data key bootstrap p' ms :
  train P ST OS K split optimize permutation ly f opt_init dr p data key bootstrap = Ok (p', ms) ->
  exists trains tests, let cf := p_config _ _ _ p in
    create_dataset_splits K split dr data (p_num_models _ _ _ p) (nth 1 (split key 3) key) bootstrap (cf_augment cf) (cf_val_frac cf) = Ok (trains, tests) /\
    length (params p') = p_num_models _ _ _ p /\ length (states p') = p_num_models _ _ _ p /\ length ms = p_num_models _ _ _ p /\
    length trains = p_num_models _ _ _ p /\
    (forall i tr te, nth_error trains i = Some tr -> nth_error tests i = Some te ->
       exists k init s, train_model P ST OS K split optimize permutation f (cf_batch_size cf) (cf_epochs cf) (cf_class_weight cf) (cf_rate_weight cf) tr te k
           (let '(q, st) := ly_init _ _ _ ly init (length (e_context (hd (mkexample 0 0 []) (hd [] trains)))) in mktrain_state _ _ _ q st (opt_init q))
           = Ok (s, nth i ms []) /\
         nth_error (params p') i = Some (ts_params _ _ _ s) /\ nth_error (states p') i = Some (ts_state _ _ _ s)) /\
    p_config _ _ _ p' = cf /\ p_num_models _ _ _ p' = p_num_models _ _ _ p /\ p_context_dim _ _ _ p' = p_context_dim _ _ _ p /\
    p_packaged _ _ _ p' = p_packaged _ _ _ p.
Proof.
  unfold train, key_at. intros H.
  destruct (create_dataset_splits _ _ _ _ _ _ _ _ _) as [[trains tests]|e|] eqn:Es; cbn [bind] in H; try discriminate.
  destruct (train_multiple_models _ _ _ _ _ _ _ _ _ _ _ _ _ _ _) as [models|e|] eqn:Em; cbn [bind] in H; try discriminate. injection H as <- <-.
  exists trains, tests. cbn zeta. split; [auto|]. cbn [fst snd] in Em. unfold train_multiple_models in Em.
  destruct (length trains =? p_num_models _ _ _ p)%nat eqn:L1; cbn [negb] in Em; [|discriminate]. apply Nat.eqb_eq in L1.
  destruct (length tests =? p_num_models _ _ _ p)%nat eqn:L2; cbn [negb] in Em; [|discriminate]. apply Nat.eqb_eq in L2.
  destruct trains as [|[|e0 tr0] trs]; try discriminate.
  apply zip3_ok in Em; [|rewrite combine_length, map_length, !splits; lia|congruence]. destruct Em as [Lm Nm].
  rewrite !map_length. cbn [p_params p_states p_config p_num_models p_context_dim p_packaged]. rewrite !map_length.
  split; [congruence|]. split; [congruence|]. split; [congruence|]. split; [auto|]. split; [|auto].
  intros i tr te Ht He. set (nets := map _ (split _ _)) in *. set (kn := combine _ nets) in *.
  assert (Li : (i < length kn)%nat) by (unfold kn, nets; rewrite combine_length, map_length, !splits; apply nth_error_lt in Ht; rewrite L1 in Ht; lia).
  destruct (nth_error kn i) as [[k net]|] eqn:Ek; [|apply nth_error_None in Ek; lia].
  destruct (Nm i tr (k, net) te Ht Ek He) as (m & E1 & E2). cbn [fst snd] in E2.
  assert (En : exists init, net = ly_init _ _ _ ly init (length (e_context e0))).
  { apply nth_error_In in Ek. apply in_combine_r in Ek. unfold nets in Ek. apply in_map_iff in Ek. destruct Ek as (k0 & <- & _). eauto. }
  destruct En as (init & ->). exists k, init, (fst m). cbn [hd]. destruct (ly_init _ _ _ ly init (length (e_context e0))) as [q st]. cbn [fst snd] in E2.
  rewrite !nth_error_map, E1. cbn. split; [|auto]. rewrite E2. destruct m as [s0 ms0]. cbn. do 2 f_equal. symmetry. apply nth_error_nth. rewrite nth_error_map, E1. auto.
Qed.

(** * distilling *)

(** C93: the targets are the ensemble's rates *)
Theorem distill_targets_rates n p x key : evaluates n f ->
  distill_targets P ST K f (params p) (states p) x key = fst (apply_model P ST K split f p x None None).
Proof.
  intros Ev. rewrite (proj1 (ensemble_deterministic split f n Ev p x None (Some key) None)). unfold distill_targets, apply_model. cbn.
  destruct (batch_apply _ _ _ f (params p) (states p) x key false); auto.
Qed.

(** C93: the loss: how far the student is from the ensemble's rates *)
Theorem distill_loss_zero n q st p x rng key targets out st' : evaluates n f -> (0 < n)%nat -> sized p -> x <> [] ->
  fst (apply_model P ST K split f p x None None) = Ok targets ->
  f q st rng x true = Ok (out, st') -> length out = length x -> (forall r, In r out -> length r = S n) ->
  exists l, distill_loss P ST K f q st (params p) (states p) x rng key = Ok (l, st') /\ 0 <= l /\
    (l = 0 <-> map per_neighbor out = targets).
Proof.
  intros Ev Hn Sz Nx Ht Ho Lo Ro. unfold distill_loss. rewrite (distill_targets_rates n p x key Ev), Ht. cbn [bind]. rewrite Ho. cbn [bind].
  set (terms := map (fun pt => squared_error (per_neighbor (fst pt)) (snd pt)) (combine out targets)).
  eexists. split; [reflexivity|].
  destruct (apply_model P ST K split f p x None None) as [r p'] eqn:Ea. cbn in Ht. subst r.
  destruct (ensemble_rates split f n Hn Ev p x None targets p' Sz Ea) as (outs & _ & _ & Lt & Rt).
  assert (Nn : forall y, In y terms -> 0 <= y) by (intros y Hy; apply in_map_iff in Hy; destruct Hy as (z & <- & _); apply squared_error_nonneg).
  assert (Lx : (0 < length terms)%nat) by (unfold terms; rewrite map_length, combine_length; destruct x; [congruence|cbn in *; lia]).
  assert (P0 : 0 < INR (length terms)) by (apply lt_0_INR; auto).
  split; [apply Rmult_le_pos; [apply rsum_nonneg; auto|left; apply Rinv_0_lt_compat; auto]|].
  assert (Q : mean terms = 0 <-> rsum terms = 0).
  { unfold mean. split; [|intros ->; unfold Rdiv; ring]. intros E. apply Rmult_integral in E. destruct E as [E|E]; auto. exfalso. apply Rinv_neq_0_compat in E; auto. lra. }
  rewrite Q, rsum_zero by auto. clear Q.
  assert (Lr : forall t, In t targets -> length t = n) by (intros t Hin; apply In_nth_error in Hin; destruct Hin as (j & Hj); apply (Rt j t Hj)).
  assert (Lout : length out = length targets) by congruence. clear - Lout Lr Ro. unfold terms. clear terms.
  revert targets Lout Lr. induction out as [|o out IH]; intros [|t targets] L Lr; try discriminate; [cbn; split; [auto|intros _ x []]|].
  assert (Lp : length (per_neighbor o) = length t).
  { rewrite (Lr t (or_introl eq_refl)). unfold per_neighbor, softmax. rewrite !map_length. unfold choices_of. specialize (Ro o (or_introl eq_refl)).
    destruct o as [|y o]; [discriminate|]. assert (N : y :: o <> []) by discriminate. pose proof (f_equal (@length R) (app_removelast_last 0 N)) as E. rewrite app_length in E. cbn [length] in *. lia. }
  assert (IH' := IH (fun r Hr => Ro r (or_intror Hr)) targets ltac:(cbn in L; congruence) (fun t' Ht' => Lr t' (or_intror Ht'))). split.
  - intros H. cbn. f_equal; [apply squared_error_zero; auto; apply H; left; auto|]. apply IH'. intros x Hx. apply H. right. auto.
  - intros E x Hx. cbn in E. injection E as E1 E2. destruct Hx as [<-|Hx]; [apply squared_error_zero; auto|]. apply (proj2 IH' E2). auto.
Qed.

(** C93: distilling leaves one model, trained for the epochs asked for *)
Theorem distill_single p data batch_size epochs batches p' losses :
  distill P ST OS K split optimize ly f opt_init normals p data batch_size epochs batches = Ok (p', losses) ->
  (exists q s, params p' = [q] /\ states p' = [s]) /\ length losses = epochs /\ (forall l, In l losses -> 0 <= l) /\
  ((0 < batches)%nat \/ epochs = 0%nat) /\
  p_num_models _ _ _ p' = p_num_models _ _ _ p /\ p_context_dim _ _ _ p' = p_context_dim _ _ _ p /\ p_config _ _ _ p' = p_config _ _ _ p /\
  p_packaged _ _ _ p' = p_packaged _ _ _ p.
Proof.
  unfold distill. intros H. destruct (map_res to_example data) as [ex|e|]; cbn [bind] in H; try discriminate.
  match type of H with context [distill_multiple_models_to_single _ _ _ _ _ _ _ _ _ _ _ _ _ _ _ _ ?m ?sc] => set (dm := m) in H; set (dsc := sc) in H end.
  unfold distill_multiple_models_to_single in H. destruct (ly_init _ _ _ ly _ (length dm)) as [q0 s0].
  set (s1 := mktrain_state _ _ _ q0 s0 (opt_init q0)) in H. set (k1 := key_at _ _ _ _ _) in H.
  destruct (distill_loop P ST OS K split optimize f normals (params p) (states p) batches batch_size dm dsc epochs s1 k1) as [[[s rng] ls]|e|] eqn:El; cbn [bind] in H; try discriminate.
  injection H as <- <-. cbn. split; [eauto|].
  assert (G : length ls = epochs /\ (forall l, In l ls -> 0 <= l) /\ ((0 < batches)%nat \/ epochs = 0%nat)).
  { clearbody s1 k1. revert s1 k1 s rng ls El. induction epochs as [|epochs IH]; intros s1 k1 s rng ls El; cbn in El.
    - injection El as <- <- <-. split; auto. split; [intros l []|auto].
    - destruct (distill_train_epoch P ST OS K split optimize f normals (params p) (states p) batches batch_size dm dsc s1 k1) as [[[s2 k2] l2]|e|] eqn:E2; cbn [bind] in El; try discriminate.
      destruct (distill_loop P ST OS K split optimize f normals (params p) (states p) batches batch_size dm dsc epochs s2 k2) as [[[s3 k3] l3]|e|] eqn:E3; cbn [bind] in El; try discriminate.
      injection El as <- <- <-. destruct (IH _ _ _ _ _ E3) as (L & N & _). unfold distill_train_epoch in E2.
      destruct (scan_out _ s1 (split k1 batches)) as [[s4 l4]|e|] eqn:E4; cbn [bind] in E2; try discriminate.
      pose proof (splits k1 batches) as Lb. destruct (split k1 batches) as [|k ks] eqn:Ek; [discriminate|]. injection E2 as <- _ <-.
      split; [cbn; congruence|]. split; [|left; rewrite <- Lb; cbn; lia]. intros l [<-|Hl]; auto.
      assert (F4 : forall l, In l l4 -> 0 <= l).
      { clear - E4. revert s1 s4 l4 E4. generalize (k :: ks). intros ks'. induction ks' as [|k' ks' IH]; intros s1 s4 l4 E4; cbn in E4.
        - injection E4 as <- <-. intros l [].
        - destruct (distill_train_step P ST OS K split optimize f normals (params p) (states p) batch_size dm dsc s1 k') as [[s5 l5]|e|] eqn:E5; cbn [bind fst snd] in E4; try discriminate.
          destruct (scan_out _ s5 ks') as [[s6 l6]|e|] eqn:E6; cbn [bind fst snd] in E4; try discriminate. injection E4 as <- <-. intros l [<-|Hl]; [|eapply IH; eauto].
          unfold distill_train_step in E5. destruct (distill_loss _ _ _ _ _ _ _ _ _ _ _) as [[l7 s7]|e|] eqn:E7; cbn [bind] in E5; try discriminate.
          destruct (optimize _ _ _) as [po|e|]; cbn [bind] in E5; try discriminate. injection E5 as _ <-. cbn.
          unfold distill_loss in E7. destruct (distill_targets _ _ _ _ _ _ _ _) as [tg|e|]; cbn [bind] in E7; try discriminate.
          destruct (f _ _ _ _ true) as [[pr s8]|e|]; cbn [bind] in E7; try discriminate. injection E7 as <- _.
          unfold mean. destruct (length (map _ (combine pr tg))) eqn:Ln.
          + apply length_zero_iff_nil in Ln. rewrite Ln. cbn. unfold rsum. cbn. unfold Rdiv. rewrite Rmult_0_l. lra.
          + apply Rmult_le_pos; [apply rsum_nonneg; intros y Hy; apply in_map_iff in Hy; destruct Hy as (z & <- & _); apply squared_error_nonneg|]. left. apply Rinv_0_lt_compat. apply lt_0_INR. lia. }
      unfold mean. cbn. destruct (length l4) eqn:Ln.
      + apply length_zero_iff_nil in Ln. subst. cbn. unfold rsum. cbn. unfold Rdiv. rewrite Rmult_0_l. lra.
      + apply Rmult_le_pos; [apply rsum_nonneg; auto|]. left. apply Rinv_0_lt_compat. rewrite <- Ln. apply lt_0_INR. lia. }
  destruct G as (G1 & G2 & G3). auto 10.
Qed.

(** C93: the inputs that are made up: independent standard normals, scaled and moved column by column *)
Theorem synthetic_inputs key n m sc j row z : length m = length sc -> (forall r, In r (normals key n (length m)) -> length r = length m) ->
  nth_error (normals key n (length m)) j = Some z -> nth_error (synthetic K normals key n m sc) j = Some row ->
  length row = length m /\ forall i zi mi si, nth_error z i = Some zi -> nth_error m i = Some mi -> nth_error sc i = Some si ->
    nth_error row i = Some (mi + si * zi).
Proof.
  intros L N Hz Hr. unfold synthetic in Hr. rewrite nth_error_map, Hz in Hr. cbn in Hr. injection Hr as <-. assert (Lz := N z (nth_error_In _ _ Hz)). split.
  - rewrite map_length, !combine_length. lia.
  - intros i zi mi si H1 H2 H3. rewrite nth_error_map. rewrite (combine_nth_error z _ i zi (si, mi)); auto; [cbn; f_equal; ring|]. apply combine_nth_error; auto.
Qed.

(** C93: of the data, distilling uses the mean and the variance of each number only *)
Theorem distill_moments p d1 d2 e1 e2 dim batch_size epochs batches :
  map_res to_example d1 = Ok e1 -> map_res to_example d2 = Ok e2 -> e1 <> [] -> e2 <> [] ->
  (forall e, In e e1 \/ In e e2 -> length (e_context e) = dim) ->
  let values i es := map (fun e => nth i (e_context e) 0) es in
  let variance l := mean (map (fun x => (x - mean l) * (x - mean l)) l) in
  (forall i, (i < dim)%nat -> mean (values i e1) = mean (values i e2) /\ variance (values i e1) = variance (values i e2)) ->
  distill P ST OS K split optimize ly f opt_init normals p d1 batch_size epochs batches = distill P ST OS K split optimize ly f opt_init normals p d2 batch_size epochs batches.
Proof.
  intros E1 E2 N1 N2 D values variance M. unfold distill. rewrite E1, E2. cbn [bind].
  assert (Q : forall es, es <> [] -> (forall e, In e es -> length (e_context e) = dim) -> match map e_context es with [] => 0%nat | r :: _ => length r end = dim).
  { intros [|e es] N H; [congruence|]. apply H. left. auto. }
  rewrite (Q e1), (Q e2) by auto.
  assert (A : map (fun i => mean (column i (map e_context e1))) (seq 0 dim) = map (fun i => mean (column i (map e_context e2))) (seq 0 dim)).
  { apply map_ext_in. intros i Hi. apply in_seq in Hi. unfold column. rewrite !map_map. apply (M i). lia. }
  assert (B : map (fun i => std (column i (map e_context e1))) (seq 0 dim) = map (fun i => std (column i (map e_context e2))) (seq 0 dim)).
  { apply map_ext_in. intros i Hi. apply in_seq in Hi. unfold column, std. rewrite !map_map with (f := e_context). f_equal. apply (M i). lia. }
  rewrite A, B. auto.
Qed.

(** C93: a predictor starts with the number of models asked for, on as many numbers as it uses *)
Theorem new_predictor_models key d cf : (0 < cf_num_models cf)%nat ->
  exists p, new_predictor P ST K split ly key d cf = Ok p /\ length (params p) = cf_num_models cf /\ sized p /\
    p_context_dim _ _ _ p = (d + (if cf_use_current cf then 1 else 0) + (if cf_use_voltage cf then 1 else 0))%nat /\
    p_num_models _ _ _ p = cf_num_models cf /\ p_config _ _ _ p = cf /\ p_packaged _ _ _ p = None /\
    forall i q s, nth_error (params p) i = Some q -> nth_error (states p) i = Some s -> exists k, In k (split key (cf_num_models cf + 1)) /\ (q, s) = ly_init _ _ _ ly k (p_context_dim _ _ _ p).
Proof.
  intros H. unfold new_predictor. pose proof (splits key (cf_num_models cf + 1)) as L. destruct (split key (cf_num_models cf + 1)) as [|r [|k ks]]; cbn in L; try lia.
  eexists. split; [reflexivity|]. unfold sized, nat_of_bool. cbn [p_params p_states p_context_dim p_num_models p_config p_packaged]. rewrite !map_length.
  split; [cbn; lia|]. split; [split; [auto|discriminate]|]. do 4 (split; [auto|]).
  intros i q s Hq Hs. rewrite !nth_error_map in Hq, Hs. destruct (nth_error (k :: ks) i) as [k0|] eqn:Ek; cbn [option_map] in *; [|discriminate]. exists k0. split; [right; eapply nth_error_In; eauto|].
  injection Hq as <-. injection Hs as <-. destruct (ly_init _ _ _ ly k0 _); auto.
Qed.
End Ensembles.
Print Assumptions synthetic_inputs.
Print Assumptions distill_moments.
Print Assumptions new_predictor_models.

(** C93: a number that does not vary in the data does not vary in what is made up *)
Theorem std_zero l : l <> [] -> 0 <= std l /\ (std l = 0 <-> forall x, In x l -> x = mean l).
Proof.
  intros N. unfold std. split; [apply sqrt_pos|]. set (m := mean l).
  assert (Lp : 0 < INR (length l)) by (apply lt_0_INR; destruct l; [congruence|cbn; lia]).
  assert (Nn : forall y, In y (map (fun x => (x - m) * (x - m)) l) -> 0 <= y) by (intros y Hy; apply in_map_iff in Hy; destruct Hy as (x & <- & _); apply Rle_0_sqr).
  unfold mean at 1. rewrite map_length. set (r := rsum _). assert (0 <= r) by (apply rsum_nonneg; auto). split.
  - intros E. apply sqrt_eq_0 in E; [|apply Rmult_le_pos; auto; left; apply Rinv_0_lt_compat; auto].
    assert (Er : r = 0) by (apply Rmult_integral in E; destruct E as [E|E]; auto; exfalso; apply Rinv_neq_0_compat in E; auto; lra).
    intros x Hx. unfold r in Er. rewrite rsum_zero in Er by auto. assert ((x - m) * (x - m) = 0) by (apply Er; apply in_map_iff; eauto). apply Rsqr_0_uniq in H0. lra.
  - intros E. assert (Er : r = 0) by (unfold r; apply rsum_zero; auto; intros y Hy; apply in_map_iff in Hy; destruct Hy as (x & <- & Hx); rewrite (E x Hx); ring).
    rewrite Er. unfold Rdiv. rewrite Rmult_0_l. apply sqrt_0.
Qed.
Print Assumptions std_zero.
Print Assumptions ensemble_training.
Print Assumptions distill_targets_rates.
Print Assumptions distill_loss_zero.
Print Assumptions distill_single.

(** C93: a student that always gives the ensemble's rates has nothing to learn *)
Definition pair_net : apply_type R unit unit := fun p s _ x _ => Ok (map (fun _ => [1; 1; p]) x, s).
Definition pair_pred : predictor R unit unit := mkpredictor R unit unit [1; 3] [tt; tt] tt 2 1 (mkconfig 2 false false 1 1 1 1 false 0) None.
Example distill_nonvacuous : sized pair_pred /\
  fst (apply_model R unit unit (fun k n => repeat k n) pair_net pair_pred [[0]] None None) = Ok [[1; 1]] /\
  distill_loss R unit unit pair_net 2 tt [1; 3] [tt; tt] [[0]] tt tt = Ok (0, tt).
Proof.
  assert (E2 : forall t, per_neighbor [1; 1; t] = [t / 2; t / 2]).
  { intros t. unfold per_neighbor, softmax, total_of, choices_of. cbn. unfold rsum. cbn. pose proof (exp_pos 1). f_equal; [|f_equal]; field; lra. }
  assert (M : mean_rows [[[1 / 2; 1 / 2]]; [[3 / 2; 3 / 2]]] = [[1; 1]]) by (cbn; do 2 f_equal; [|f_equal]; field).
  split; [split; [auto|discriminate]|]. split.
  - unfold apply_model. cbn [batch_apply combine pair_pred p_params p_states map_res fst snd pair_net fmap_res bind map]. unfold batch_apply. cbn [combine map_res fst snd pair_net fmap_res bind map]. rewrite !E2, M. auto.
  - unfold distill_loss, distill_targets, batch_apply. cbn [combine map_res fst snd pair_net fmap_res bind map]. rewrite !E2, M. unfold squared_error, mean. cbn. unfold rsum. cbn. do 2 f_equal. pose proof (exp_pos 1). field. lra.
Qed.
