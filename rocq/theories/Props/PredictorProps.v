(** C92: the life of a rate predictor *)
From Coq Require Import Reals ZArith List Bool Arith Lia Lra Permutation.
From Verif Require Import Base.Prelude Model.DataUtils Model.MicroscopeUtils Model.Constants Model.Geometry Model.Alignment Model.LearnRates Spec.WaitingTimes Spec.Networks Spec.Orienting
  Proofs.BaseFacts Proofs.ClumpFacts Proofs.LossFacts Proofs.MaterialFacts Proofs.RateFacts Props.AugmentProps Props.OrientProps Props.EnsembleProps.
Import ListNotations.
Open Scope R_scope.

Lemma take_idx_nth {A} (l : list A) : forall idx l', take_idx l idx = Some l' -> forall k, nth_error l' k = match nth_error idx k with Some i => nth_error l i | None => None end.
Proof.
  induction idx as [|i idx IH]; intros l' E k; cbn in E.
  - injection E as <-. destruct k; auto.
  - destruct (nth_error l i) as [x|] eqn:Ex; [|discriminate]. destruct (take_idx l idx) as [m|]; [|discriminate]. injection E as <-. destruct k; cbn; auto.
Qed.

Lemma nth_error_Forall2 {A B} (Q : A -> B -> Prop) l : forall l', length l = length l' -> (forall i x y, nth_error l i = Some x -> nth_error l' i = Some y -> Q x y) -> Forall2 Q l l'.
Proof.
  induction l as [|a l IH]; intros [|b l'] L H; try discriminate; constructor.
  - apply (H 0%nat); auto.
  - apply IH; [cbn in L; congruence|]. intros i x y Hx Hy. apply (H (S i)); auto.
Qed.

Section Predictor.
Context {P ST OS K : Type}.
Variable split : K -> nat -> list K.
Variable optimize : (P -> res R) -> P -> OS -> res (P * OS).
Variable permutation : K -> nat -> list nat.
Variable ly : layers P ST K.
Variable f : apply_type P ST K.
Variable opt_init : P -> OS.
Variable normals : K -> nat -> nat -> list (list R).
Variable asort : argsort_fn.
Hypothesis sorts : argsort_ok asort.
Hypothesis splits : forall k n, length (split k n) = n.

Notation predictor := (predictor P ST K).
Notation params := (p_params P ST K).
Notation states := (p_states P ST K).
Notation packaged := (p_packaged P ST K).
Notation cfg := (p_config P ST K).
Notation predict := (predict P ST K f asort).
Notation save := (save P ST K f).
Notation load := (load P ST K).

(** * predicting *)

(** the neighbours as seen from the silicon, the beam in bond lengths *)
Definition seen (positions : list pt) (beam cur : pt) (indices : list nat) (beam' : pt) (nbs : list pt) : Prop :=
  Forall2 (fun i q => exists p, nth_error positions i = Some p /\ q = mkpt (px p - px cur) (py p - py cur)) indices nbs /\
  beam' = mkpt ((px beam - px cur) / CARBON_BOND_DISTANCE_ANGSTROMS) ((py beam - py cur) / CARBON_BOND_DISTANCE_ANGSTROMS).

(** C92: the shipped configurations, which use the voltage or the current, cannot predict *)
Theorem predict_context_refuted p positions beam cur indices voltage current l :
  cf_use_voltage (cfg p) || cf_use_current (cfg p) = true -> fst (predict p positions beam cur indices voltage current) <> Ok l.
Proof.
  intros H. unfold LearnRates.predict. destruct (match packaged p with Some pk => Ok pk | None => _ end) as [pk|e|]; try discriminate.
  destruct (take_idx positions indices); [|discriminate]. destruct (standardize_beam_and_neighbors asort _ _) as [[[nb t] o]|e|]; try discriminate.
  cbn [p_config with_package]. destruct (cf_use_voltage (cfg p)); [discriminate|]. destruct (cf_use_current (cfg p)); discriminate.
Qed.

(** what a predictor runs: what it was when first called *)
Definition runs (p : predictor) (t : list P * list ST * K) : Prop :=
  match packaged p with
  | Some pk => pk_fixed _ _ _ pk = None /\ match pk_traced _ _ _ pk with Some t' => t = t' | None => t = (params p, states p, p_rng _ _ _ p) end
  | None => t = (params p, states p, p_rng _ _ _ p)
  end.

Lemma call_ok p pk ctx r pk' : call_package _ _ _ f p pk ctx = (Ok r, pk') ->
  let t := match pk_traced _ _ _ pk with Some t => t | None => (params p, states p, p_rng _ _ _ p) end in
  pk' = mkpackage _ _ _ (pk_fixed _ _ _ pk) (pk_input _ _ _ pk) (Some t) /\
  run_traced _ _ _ f (pk_fixed _ _ _ pk) t ctx = Ok r /\ (exists row, ctx = [row] /\ length row = pk_input _ _ _ pk).
Proof.
  unfold call_package. intros H. cbn zeta. destruct ctx as [|row [|? ?]]; try discriminate.
  destruct (negb (length row =? pk_input _ _ _ pk)%nat) eqn:L; [discriminate|]. apply negb_false_iff, Nat.eqb_eq in L.
  set (t := match pk_traced _ _ _ pk with Some t => t | None => _ end) in *.
  destruct (run_traced _ _ _ f (pk_fixed _ _ _ pk) t [row]) eqn:E; try discriminate. injection H as <- <-. eauto.
Qed.

(** C92: what is predicted: the scores of a single model, handed to the neighbours in
    their order around the silicon.  The total rate is not used. *)
Theorem predict_scores n p positions beam cur indices voltage current l p' t : evaluates n f -> length indices = n ->
  runs p t -> length (fst (fst t)) = length (snd (fst t)) ->
  predict p positions beam cur indices voltage current = (Ok l, p') ->
  exists q s k b nbs b' turned order total c, t = ([q], [s], k) /\
    seen positions beam cur indices b nbs /\ standardize_beam_and_neighbors asort b nbs = Ok (b', turned, order) /\
    f q s k [[px b'; py b']] false = Ok ([output total c], s) /\ reordered l order c /\ Permutation order (seq 0 n) /\ length l = n /\
    params p' = params p /\ states p' = states p /\ runs p' t.
Proof.
  intros Ev Ln Rt Lt. unfold LearnRates.predict.
  destruct (match packaged p with Some pk => Ok pk | None => package_model _ _ _ p None end) as [pk|e|] eqn:Epk; try discriminate.
  destruct (take_idx positions indices) as [nb0|] eqn:Et; [|discriminate].
  set (nbs := map (fun q => psub q cur) nb0). set (b := mkpt _ _).
  destruct (standardize_beam_and_neighbors asort b nbs) as [[[b' turned] order]|e|] eqn:Es; try discriminate.
  cbn [p_config with_package]. destruct (cf_use_voltage (cfg p)); [discriminate|]. destruct (cf_use_current (cfg p)); [discriminate|].
  destruct (call_package _ _ _ f (with_package _ _ _ p pk) pk [[px b'; py b']]) as [r pk'] eqn:Ec. intros H.
  injection H as H <-. destruct r as [out|e|]; cbn in H; try discriminate.
  apply call_ok in Ec. cbn zeta in Ec. cbn in Ec. destruct Ec as (-> & Er & _).
  assert (Ft : pk_fixed _ _ _ pk = None /\ t = match pk_traced _ _ _ pk with Some t => t | None => (params p, states p, p_rng _ _ _ p) end).
  { unfold runs in Rt. destruct (packaged p) as [pk0|].
    - injection Epk as <-. destruct Rt as [? Rt]. split; auto. destruct (pk_traced _ _ _ pk0); auto.
    - cbn in Epk. injection Epk as <-. auto. }
  destruct Ft as [F0 Et0]. rewrite <- Et0, F0 in Er. destruct t as [[ps ss] k]. cbn in Er.
  destruct (batch_apply _ _ _ f ps ss [[px b'; py b']] k false) as [outs|e|] eqn:Eb; cbn in Er; try discriminate.
  destruct outs as [|o [|? ?]]; try discriminate. injection Er as <-.
  unfold batch_apply in Eb. apply map_res_Ok in Eb. cbn in Lt.
  destruct ps as [|q [|q' ps]], ss as [|s [|s' ss]]; try discriminate Lt; try (inversion Eb; fail).
  2: { inversion Eb as [|? ? ? ? _ Eb']; subst. inversion Eb'. }
  inversion Eb as [|? ? ? ? Ef _]; subst. cbn in Ef. clear Eb.
  destruct (f q s k [[px b'; py b']] false) as [[out s1]|e|] eqn:Ef'; cbn in Ef; try discriminate. injection Ef as <-.
  pose proof (ev_state _ _ Ev _ _ _ _ _ _ Ef') as ->. pose proof (ev_rows _ _ Ev _ _ _ _ _ _ Ef') as Lo. destruct out as [|row [|? ?]]; try discriminate Lo.
  destruct (ev_outputs _ _ Ev _ _ _ _ _ _ row Ef' (or_introl eq_refl)) as (total & c & -> & Lc & _).
  destruct (take_idx (output total c) (asort (map INR order))) as [l0|] eqn:El; [|discriminate]. injection H as <-.
  assert (Sn : seen positions beam cur indices b nbs).
  { split; [|reflexivity]. unfold nbs. clear - Et. revert nb0 Et. induction indices as [|i idx IH]; intros nb0 E; cbn in E; [injection E as <-; constructor|].
    destruct (nth_error positions i) as [x|] eqn:Ex; [|discriminate]. destruct (take_idx positions idx) as [m|]; [|discriminate]. injection E as <-. cbn. constructor; eauto. }
  assert (Ln' : length nbs = length indices) by (symmetry; apply (Forall2_len _ _ _ (proj1 Sn))).
  assert (Nn : nbs <> []) by (intros E0; rewrite E0 in Es; discriminate).
  destruct (standardize_frame asort b nbs sorts Nn) as (a & j0 & nb & turned' & order' & listed & Es' & _ & _ & _ & _ & _ & Po & _).
  rewrite Es in Es'. injection Es' as Eb' <- <-.
  assert (Lo' : length order = length c) by (rewrite (Permutation_length Po), seq_length; congruence).
  assert (La : length l0 = length c).
  { assert (Q : length l0 = length (asort (map INR order))).
    { clear - El. revert l0 El. induction (asort (map INR order)) as [|i idx IH]; intros l0 E; cbn in E; [injection E as <-; auto|].
      destruct (nth_error (output total c) i); [|discriminate]. destruct (take_idx (output total c) idx); [|discriminate]. injection E as <-. cbn. auto. }
    rewrite Q, asort_length, map_length; auto. }
  exists q, s, k, b, nbs, b', turned, order, total, c.
  split; [auto|]. split; [auto|]. split; [auto|]. split; [auto|]. split; [|split; [rewrite <- Ln'; auto|split; [congruence|]]].
  - unfold reordered. apply nth_error_Forall2; [auto|]. intros j kk x Hk Hx.
    assert (Hkn : (kk < length nbs)%nat) by (assert (In kk (seq 0 (length nbs))) by (apply (Permutation_in _ Po); eapply nth_error_In; eauto); apply in_seq in H; lia).
    destruct (asort_inverse asort order (length nbs) kk sorts Po Hkn) as (i & Ei & Eo).
    assert (i = j).
    { assert (ND : NoDup order) by (apply (Permutation_NoDup (Permutation_sym Po)), seq_NoDup). rewrite NoDup_nth_error in ND. apply ND; [eapply nth_error_lt; eauto|congruence]. }
    subst i. rewrite (take_idx_nth _ _ _ El kk), Ei. unfold output. rewrite nth_error_app1 by (eapply nth_error_lt; eauto). auto.
  - cbn. split; [auto|]. split; [auto|]. unfold runs. cbn. split; auto.
Qed.

(** C92: it predicts for any neighbours, given a single model that takes two numbers *)
Theorem predict_succeeds n p positions beam cur indices voltage current q s : evaluates n f -> length indices = n -> (0 < n)%nat ->
  Forall (fun i => (i < length positions)%nat) indices ->
  cf_use_voltage (cfg p) = false -> cf_use_current (cfg p) = false -> packaged p = None ->
  params p = [q] -> states p = [s] -> p_context_dim _ _ _ p = 2%nat -> (forall k x y, exists r, f q s k [[x; y]] false = Ok r) ->
  exists l p', predict p positions beam cur indices voltage current = (Ok l, p').
Proof.
  intros Ev Ln Hn Fi Hv Hc Hp Eq Es Ed Ef. unfold LearnRates.predict. rewrite Hp. cbn [package_model].
  destruct (reordered_ex positions indices Fi) as (nb0 & -> & Rn).
  set (nbs := map (fun q => psub q cur) nb0). set (b := mkpt _ _).
  assert (Lb : length nbs = n) by (unfold nbs; rewrite map_length, (reordered_length _ _ _ Rn); auto).
  assert (Nn : nbs <> []) by (destruct nbs; cbn in Lb; [lia|discriminate]).
  destruct (standardize_frame asort b nbs sorts Nn) as (a & j0 & nb & turned & order & listed & -> & _ & _ & _ & _ & _ & Po & _).
  cbn [p_config with_package]. rewrite Hv, Hc. set (b' := rotate b a).
  unfold call_package. cbn [pk_traced pk_input pk_fixed p_params p_states p_rng with_package length]. rewrite Ed, Eq, Es. cbn [Nat.eqb negb run_traced batch_apply combine map_res fst snd].
  unfold batch_apply. cbn [combine map_res fst snd].
  destruct (Ef (p_rng _ _ _ p) (px b') (py b')) as ([out s'] & Er). rewrite Er. cbn [fmap_res bind fst].
  pose proof (ev_rows _ _ Ev _ _ _ _ _ _ Er) as Lo. destruct out as [|row [|? ?]]; try discriminate Lo.
  destruct (ev_outputs _ _ Ev _ _ _ _ _ _ row Er (or_introl eq_refl)) as (total & c & -> & Lc & _).
  destruct (reordered_ex (output total c) (asort (map INR order))) as (l & -> & _); [|eauto].
  apply Forall_forall. intros i Hi. assert (La : (i < length (map INR order))%nat).
  { assert (In i (seq 0 (length (map INR order)))) by (apply (Permutation_in _ (asort_perm asort (map INR order) sorts)); auto). apply in_seq in H. lia. }
  rewrite map_length, (Permutation_length Po), seq_length in La. unfold output. rewrite app_length. lia.
Qed.

(** C92: an ensemble cannot predict *)
Theorem predict_ensemble_refuted p positions beam cur indices voltage current l t : runs p t ->
  length (combine (fst (fst t)) (snd (fst t))) <> 1%nat -> fst (predict p positions beam cur indices voltage current) <> Ok l.
Proof.
  intros Rt Lt. unfold LearnRates.predict.
  destruct (match packaged p with Some pk => Ok pk | None => package_model _ _ _ p None end) as [pk|e|] eqn:Epk; try discriminate.
  destruct (take_idx positions indices) as [nb0|] eqn:Et; [|discriminate].
  destruct (standardize_beam_and_neighbors asort _ _) as [[[b' turned] order]|e|] eqn:Es; try discriminate.
  cbn [p_config with_package]. destruct (cf_use_voltage (cfg p)); [discriminate|]. destruct (cf_use_current (cfg p)); [discriminate|].
  destruct (call_package _ _ _ f (with_package _ _ _ p pk) pk [[px b'; py b']]) as [r pk'] eqn:Ec. cbn. destruct r as [out|e|]; cbn; try discriminate.
  intros _. apply call_ok in Ec. cbn zeta in Ec. cbn in Ec. destruct Ec as (-> & Er & _).
  assert (Ft : t = match pk_traced _ _ _ pk with Some t => t | None => (params p, states p, p_rng _ _ _ p) end).
  { unfold runs in Rt. destruct (packaged p) as [pk0|].
    - injection Epk as <-. destruct Rt as [? Rt]. destruct (pk_traced _ _ _ pk0); auto.
    - cbn in Epk. injection Epk as <-. auto. }
  rewrite <- Ft in Er. destruct t as [[ps ss] k]. cbn in Er. unfold batch_apply in Er.
  destruct (map_res _ (combine ps ss)) as [outs|e|] eqn:Eb; cbn in Er; try discriminate. apply map_res_Ok in Eb. apply Forall2_len in Eb. cbn in Lt.
  destruct outs as [|o [|? ?]]; try discriminate. apply Lt. rewrite Eb. auto.
Qed.

(** C92: once it has predicted, training and distilling change no prediction *)
Theorem predict_stale dr p positions beam cur indices voltage current l p1 data key bootstrap p2 ms a b e p3 losses :
  predict p positions beam cur indices voltage current = (Ok l, p1) ->
  train P ST OS K split optimize permutation ly f opt_init dr p1 data key bootstrap = Ok (p2, ms) ->
  distill P ST OS K split optimize ly f opt_init normals p2 data a b e = Ok (p3, losses) ->
  forall positions' beam' cur' indices' voltage' current',
    fst (predict p2 positions' beam' cur' indices' voltage' current') = fst (predict p1 positions' beam' cur' indices' voltage' current') /\
    fst (predict p3 positions' beam' cur' indices' voltage' current') = fst (predict p1 positions' beam' cur' indices' voltage' current').
Proof.
  intros H Ht Hd.
  assert (Q : exists pk t, packaged p1 = Some pk /\ pk_traced _ _ _ pk = Some t).
  { unfold LearnRates.predict in H. destruct (match packaged p with Some pk => Ok pk | None => _ end) as [pk|e0|]; try discriminate.
    destruct (take_idx positions indices); [|discriminate]. destruct (standardize_beam_and_neighbors asort _ _) as [[[nb t] o]|e0|]; try discriminate.
    cbn [p_config with_package] in H. destruct (cf_use_voltage (cfg p)); [discriminate|]. destruct (cf_use_current (cfg p)); [discriminate|].
    destruct (call_package _ _ _ f _ pk _) as [r pk'] eqn:Ec. injection H as H <-. destruct r; cbn in H; try discriminate. apply call_ok in Ec. destruct Ec as [-> _]. do 2 eexists. split; reflexivity. }
  destruct Q as (pk & t & E1 & E2).
  assert (T : packaged p2 = packaged p1 /\ cfg p2 = cfg p1).
  { unfold train in Ht. destruct (create_dataset_splits _ _ _ _ _ _ _ _ _) as [sets|e0|]; cbn in Ht; try discriminate.
    destruct (train_multiple_models _ _ _ _ _ _ _ _ _ _ _ _ _ _ _) as [models|e0|]; cbn in Ht; try discriminate. injection Ht as <- _. auto. }
  assert (D : packaged p3 = packaged p2 /\ cfg p3 = cfg p2).
  { unfold distill in Hd. destruct (map_res to_example data) as [ex|e0|]; cbn in Hd; try discriminate.
    destruct (distill_multiple_models_to_single _ _ _ _ _ _ _ _ _ _ _ _ _ _ _ _ _ _) as [[[s0 r0] l0]|e0|]; cbn in Hd; try discriminate. injection Hd as <- _. auto. }
  assert (G : forall p', packaged p' = packaged p1 -> cfg p' = cfg p1 -> forall positions' beam' cur' indices' voltage' current',
     fst (predict p' positions' beam' cur' indices' voltage' current') = fst (predict p1 positions' beam' cur' indices' voltage' current')).
  { intros p' F1 F2 positions' beam' cur' indices' voltage' current'. unfold LearnRates.predict. rewrite F1, E1.
    destruct (take_idx positions' indices'); [|auto]. destruct (standardize_beam_and_neighbors asort _ _) as [[[nb t0] o]|e0|]; auto.
    cbn [p_config with_package]. rewrite F2. destruct (cf_use_voltage (cfg p1)); [auto|]. destruct (cf_use_current (cfg p1)); [auto|].
    unfold call_package. rewrite E2. destruct (negb _); auto. destruct (run_traced _ _ _ f _ t _); auto. }
  destruct T as [T1 T2], D as [D1 D2]. intros. split; apply G; congruence.
Qed.

(** * saving and loading *)

(** C92: a loaded predictor has the parameters and the configuration of the saved one, and predicts as
    that one does, but keeps its own network states *)
Theorem save_load p dir step fixed_context dir' p1 q : save p dir step fixed_context = (Ok tt, dir', p1) ->
  exists q1, load q dir' step true true = (Ok tt, q1) /\
    params q1 = params p /\ cfg q1 = cfg p /\ states q1 = states q /\
    (forall positions beam cur indices voltage current,
       fst (predict q1 positions beam cur indices voltage current) = fst (predict p1 positions beam cur indices voltage current)) /\
    params p1 = params p /\ states p1 = states p /\ cfg p1 = cfg p /\
    (forall step', step' <> step -> sv_params _ _ _ dir' step' = sv_params _ _ _ dir step').
Proof.
  unfold LearnRates.save, LearnRates.load. intros H. destruct (package_model _ _ _ p fixed_context) as [pk|e|] eqn:Ep; try discriminate.
  assert (Tr : pk_traced _ _ _ pk = None).
  { unfold package_model in Ep. destruct fixed_context; [destruct (_ <? _)%nat; [discriminate|]|]; injection Ep as <-; auto. }
  destruct (call_package _ _ _ f p pk [repeat 0 (pk_input _ _ _ pk)]) as [r pk'] eqn:Ec. destruct r as [out|e|]; try discriminate.
  apply call_ok in Ec. cbn zeta in Ec. rewrite Tr in Ec. destruct Ec as (-> & _ & _). injection H as <- <-. cbn. rewrite Nat.eqb_refl.
  eexists. split; [reflexivity|]. cbn. split; [auto|]. split; [auto|]. split; [auto|]. split.
  - intros. unfold LearnRates.predict. cbn [packaged p_packaged with_package]. destruct (take_idx positions indices); [|auto].
    destruct (standardize_beam_and_neighbors asort _ _) as [[[nb t0] o]|e0|]; auto. cbn [p_config with_package].
    destruct (cf_use_voltage (cfg p)); [auto|]. destruct (cf_use_current (cfg p)); [auto|].
    unfold call_package. cbn [pk_traced pk_input pk_fixed].
    destruct (negb _); auto. match goal with |- context [batch_apply ?a ?b ?c ?d ?e ?g ?h ?i ?j] => destruct (batch_apply a b c d e g h i j) as [[|? [|? ?]]|?|] end; auto.
  - repeat split; auto. intros step' Hs. destruct (Nat.eqb_spec step' step); [congruence|auto].
Qed.

(** C92: a failed save leaves its checkpoint behind, and nothing else *)
Theorem save_fails p dir step fixed_context e dir' p1 : save p dir step fixed_context = (Raise e, dir', p1) ->
  sv_params _ _ _ dir' step = Some (params p) /\ (forall step', step' <> step -> sv_params _ _ _ dir' step' = sv_params _ _ _ dir step') /\
  sv_model _ _ _ dir' = sv_model _ _ _ dir /\ sv_config _ _ _ dir' = sv_config _ _ _ dir.
Proof.
  unfold LearnRates.save. intros H.
  assert (Q : dir' = mksaved _ _ _ (fun s => if (s =? step)%nat then Some (params p) else sv_params _ _ _ dir s) (sv_model _ _ _ dir) (sv_config _ _ _ dir)).
  { destruct (package_model _ _ _ p fixed_context) as [pk|e0|]; try (injection H as _ <- _; auto; fail); try discriminate.
    destruct (call_package _ _ _ f p pk [repeat 0 (pk_input _ _ _ pk)]) as [r pk']. destruct r; try discriminate. injection H as _ <- _. auto. }
  subst dir'. cbn. rewrite Nat.eqb_refl. repeat split; auto. intros step' Hs. destruct (Nat.eqb_spec step' step); [congruence|auto].
Qed.
(** C92: only a single model can be saved, with a fixed context that is not longer than the input *)
Theorem save_single n p dir step fixed_context : evaluates n f -> length (params p) = length (states p) ->
  (forall q s k x, exists r, f q s k x false = Ok r) ->
  (exists dir' p1, save p dir step fixed_context = (Ok tt, dir', p1)) <->
  length (params p) = 1%nat /\ match fixed_context with None => True | Some c => (length c <= p_context_dim _ _ _ p)%nat end.
Proof.
  intros Ev Ls Ef. unfold LearnRates.save.
  assert (R0 : forall fc x, match params p with [q] => exists r, run_traced _ _ _ f fc (params p, states p, p_rng _ _ _ p) x = Ok r | _ => run_traced _ _ _ f fc (params p, states p, p_rng _ _ _ p) x = Raise ValueError end).
  { intros fc x. cbn. set (x' := match fc with None => x | Some c => _ end).
    assert (B : exists outs, batch_apply _ _ _ f (params p) (states p) x' (p_rng _ _ _ p) false = Ok outs).
    { unfold batch_apply. induction (combine (params p) (states p)) as [|ps l (outs & E)]; cbn; [eauto|]. destruct (Ef (fst ps) (snd ps) (p_rng _ _ _ p) x') as (r & ->). cbn. rewrite E. cbn. eauto. }
    destruct B as (outs & B). rewrite B. cbn. unfold batch_apply in B. apply map_res_Ok in B. apply Forall2_len in B. rewrite combine_length, <- Ls, Nat.min_id in B.
    destruct (params p) as [|q [|q' ps]], outs as [|o [|o' os]]; try discriminate B; auto. exists o. auto. }
  assert (C : forall pk, pk_traced _ _ _ pk = None -> fst (call_package _ _ _ f p pk [repeat 0 (pk_input _ _ _ pk)]) =
    match run_traced _ _ _ f (pk_fixed _ _ _ pk) (params p, states p, p_rng _ _ _ p) [repeat 0 (pk_input _ _ _ pk)] with Ok r => Ok r | Raise e => Raise e | OutOfFuel => OutOfFuel end).
  { intros pk Tk. unfold call_package. rewrite Tk, repeat_length, Nat.eqb_refl. cbn [negb]. destruct (run_traced _ _ _ f _ _ _); auto. }
  assert (S : forall pk, pk_traced _ _ _ pk = None ->
    let '(r, pk') := call_package _ _ _ f p pk [repeat 0 (pk_input _ _ _ pk)] in
    (exists x, r = Ok x) <-> length (params p) = 1%nat).
  { intros pk Tk. specialize (C pk Tk). destruct (call_package _ _ _ f p pk _) as [r pk']. cbn [fst] in C. subst r. specialize (R0 (pk_fixed _ _ _ pk) [repeat 0 (pk_input _ _ _ pk)]).
    set (rt := run_traced _ _ _ f _ _ _) in *. clearbody rt.
    destruct (params p) as [|q [|q' ps]]; [rewrite R0| destruct R0 as (r & ->) | rewrite R0]; split; eauto; try (intros (x & E); discriminate); intros E; discriminate. }
  assert (G : forall pk, package_model _ _ _ p fixed_context = Ok pk -> pk_traced _ _ _ pk = None).
  { intros pk Ep. unfold package_model in Ep. destruct fixed_context; [destruct (_ <? _)%nat; [discriminate|]|]; injection Ep as <-; auto. }
  assert (M : (exists pk, package_model _ _ _ p fixed_context = Ok pk) <-> match fixed_context with None => True | Some c => (length c <= p_context_dim _ _ _ p)%nat end).
  { unfold package_model. destruct fixed_context as [c|]; [|split; eauto]. destruct (Nat.ltb_spec (p_context_dim _ _ _ p) (length c)); split; intros H0; eauto; try lia. destruct H0; discriminate. }
  split.
  - intros (dir' & p1 & H). destruct (package_model _ _ _ p fixed_context) as [pk|e|] eqn:Ep; try discriminate.
    specialize (S pk (G pk eq_refl)). destruct (call_package _ _ _ f p pk _) as [r pk']. destruct r; try discriminate. split; [apply S; eauto|apply M; eauto].
  - intros [L1 L2]. apply M in L2. destruct L2 as (pk & Ep). rewrite Ep. specialize (S pk (G pk Ep)). destruct (call_package _ _ _ f p pk _) as [r pk']. destruct (proj2 S L1) as (x & ->). eauto.
Qed.
(** C92: what is missing cannot be loaded *)
Theorem load_raises q dir step b : 
  (sv_params _ _ _ dir step = None -> load q dir step true b = (Raise FileNotFoundError, q)) /\
  (forall (a : bool) ps, (if a then sv_params _ _ _ dir step else Some (params q)) = Some ps -> sv_model _ _ _ dir = None ->
     exists q1, load q dir step a b = (Raise FileNotFoundError, q1) /\ params q1 = ps /\ states q1 = states q /\ packaged q1 = packaged q).
Proof.
  unfold LearnRates.load. split.
  - intros ->. auto.
  - intros a ps -> ->. eexists. split; [reflexivity|]. auto.
Qed.

(** C92: without parameters or configuration, only the packaged model is loaded *)
Theorem load_model_only q dir step q1 : load q dir step false false = (Ok tt, q1) ->
  params q1 = params q /\ states q1 = states q /\ cfg q1 = cfg q /\ exists m, sv_model _ _ _ dir = Some m /\
    packaged q1 = Some (mkpackage _ _ _ (fst (fst m)) (snd (fst m)) (Some (snd m))).
Proof.
  unfold LearnRates.load. destruct (sv_model _ _ _ dir) as [[[a b] t]|]; [|discriminate]. intros E. injection E as <-. cbn. repeat split; auto. eexists. split; [reflexivity|]. auto.
Qed.
End Predictor.
Print Assumptions predict_context_refuted.
Print Assumptions predict_scores.
Print Assumptions predict_succeeds.
Print Assumptions predict_ensemble_refuted.
Print Assumptions predict_stale.
Print Assumptions save_load.
Print Assumptions save_fails.
Print Assumptions save_single.
Print Assumptions load_raises.
Print Assumptions load_model_only.

(** * a predictor whose network does not look at its inputs *)
Definition const_net : apply_type unit unit unit := fun _ s _ x _ => Ok (map (fun _ => [1; 1; 1; 5]) x, s).
Definition const_cf : config := mkconfig 1 false false 1 1 1 1 false 0.
Definition const_pred : predictor unit unit unit := mkpredictor unit unit unit [tt] [tt] tt 1 2 const_cf None.
Lemma const_evaluates : evaluates 3 const_net.
Proof.
  constructor; unfold const_net.
  - intros p s k x r s' E. congruence.
  - auto.
  - intros p s k x r s' E. injection E as <- _. apply map_length.
  - intros p s k x r s' row E Hr. injection E as <- _. apply in_map_iff in Hr. destruct Hr as (y & <- & _). exists 5, [1; 1; 1].
    split; [reflexivity|]. split; [auto|]. split; [lra|]. intros z Hz. cbn in Hz. intuition lra.
Qed.
(** C92: what is predicted are not the rates: here all neighbours are reached at rate 5/3 *)
Theorem predict_rates_refuted asort positions beam cur indices voltage current : argsort_ok asort -> length indices = 3%nat ->
  Forall (fun i => (i < length positions)%nat) indices ->
  (exists p', predict unit unit unit const_net asort const_pred positions beam cur indices voltage current = (Ok [1; 1; 1], p')) /\
  forall split x, fst (apply_model unit unit unit split const_net const_pred [x] None None) = Ok [[5 / 3; 5 / 3; 5 / 3]].
Proof.
  intros A L F. split.
  - destruct (predict_succeeds const_net asort A 3 const_pred positions beam cur indices voltage current tt tt const_evaluates L ltac:(lia) F eq_refl eq_refl eq_refl eq_refl eq_refl eq_refl) as (l & p' & E).
    { intros. eexists. reflexivity. }
    destruct (predict_scores const_net asort A 3 const_pred positions beam cur indices voltage current l p' ([tt], [tt], tt) const_evaluates L eq_refl eq_refl E)
      as (q & s & k & b & nbs & b' & turned & order & total & c & _ & _ & _ & Ef & R & Po & Ll & _).
    unfold const_net in Ef. cbn in Ef. assert (Ec : [1; 1; 1; 5] = c ++ [total]) by (injection Ef as Ec; exact Ec).
    assert (c = [1; 1; 1]) by (change [1; 1; 1; 5] with ([1; 1; 1] ++ [5]) in Ec; apply app_inj_tail in Ec; destruct Ec; auto). subst c.
    exists p'. rewrite E. do 2 f_equal.
    assert (Q : forall i, (i < 3)%nat -> nth_error l i = Some 1).
    { intros i Hi. assert (Hin : In i order) by (apply (Permutation_in _ (Permutation_sym Po)), in_seq; lia). apply In_nth_error in Hin. destruct Hin as (j & Hj).
      assert (R' := reordered_nth _ _ _ _ _ R Hj). rewrite <- R'. assert (Hj' := nth_error_lt _ _ _ Hj). rewrite (Permutation_length Po) in Hj'. cbn in Hj'. destruct j as [|[|[|j]]]; auto. lia. }
    destruct l as [|a [|a1 [|a2 [|? ?]]]]; try discriminate. assert (Q0 := Q 0%nat ltac:(lia)). assert (Q1 := Q 1%nat ltac:(lia)). assert (Q2 := Q 2%nat ltac:(lia)). cbn in *. congruence.
  - intros split x. unfold apply_model. cbn. unfold per_neighbor, softmax, total_of, choices_of. cbn. unfold rsum. cbn.
    assert (E3 : exp 1 / (exp 1 + (exp 1 + (exp 1 + 0))) = 1 / 3) by (pose proof (exp_pos 1); field; lra).
    rewrite E3. assert (E5 : 5 * (1 / 3) / 1 = 5 / 3) by field. rewrite E5. auto.
Qed.
Print Assumptions predict_rates_refuted.

(** C92: it can be saved *)
Example save_nonvacuous : exists dir' p1, save unit unit unit const_net const_pred (mksaved unit unit unit (fun _ => None) None None) 7 None = (Ok tt, dir', p1).
Proof.
  apply (save_single const_net 3); [apply const_evaluates|auto| |split; auto]. intros. eexists. reflexivity.
Qed.
