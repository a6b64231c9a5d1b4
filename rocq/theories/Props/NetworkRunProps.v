(** Property C119, third part: networks that are trained and saved. *)
From Coq Require Import Reals String ZArith List Bool Lia Lra Arith.
From Verif Require Import Base.Prelude Model.MicroscopeUtils Model.DataUtils Model.LearnRates Model.Alignment Model.RateTraining
  Proofs.BaseFacts Proofs.MaterialFacts Props.DistillProps Spec.RateTraining.
Import ListNotations.
Local Open Scope R_scope.

(** every row has a context of this width *)
Definition of_width (w : nat) (data : list datapoint) : Prop := forall d, In d data -> exists c, d_context d = Some c /\ length c = w.

Lemma contexts_of w data : of_width w data -> exists rows, all_contexts data = Some rows /\ length rows = length data /\ forall r, In r rows -> length r = w.
Proof.
  induction data as [|d data IH]; intro W; [exists []; repeat split; intros r []|].
  destruct IH as (rows & E & L & B); [intros x Hx; apply W; right; exact Hx|].
  destruct (W d (or_introl eq_refl)) as (c & Ec & Lc). exists (c :: rows). cbn [all_contexts]. rewrite Ec, E. split; [reflexivity|].
  split; [cbn; congruence|]. intros r [<-|Hr]; auto.
Qed.
Lemma take_idx_in {A} (data : list A) idx l x : take_idx data idx = Some l -> In x l -> In x data.
Proof.
  revert l. induction idx as [|i idx IH]; intros l E H; cbn in E; [injection E as <-; destruct H|].
  destruct (nth_error data i) as [y|] eqn:Ey; [|discriminate]. destruct (take_idx data idx) as [l'|]; [|discriminate]. injection E as <-.
  destruct H as [<-|H]; [eapply nth_error_In; exact Ey|eapply IH; eauto].
Qed.
Lemma rows_at_in {A} (data : list A) idx l x : rows_at data idx = Ok l -> In x l -> In x data.
Proof. unfold rows_at. destruct (take_idx data idx) as [l'|] eqn:E; [|discriminate]. intro H. injection H as <-. eapply take_idx_in; eauto. Qed.
Lemma map_res_in {A B} (f : A -> res B) l l' y : map_res f l = Ok l' -> In y l' -> exists x, In x l /\ f x = Ok y.
Proof.
  intros E H. apply map_res_Ok in E. induction E as [|x z l l' Ex E IH]; [destruct H|].
  destruct H as [<-|H]; [exists x; split; [left; reflexivity|exact Ex]|]. destruct (IH H) as (u & Hu & Eu). exists u. split; [right; exact Hu|exact Eu].
Qed.
Lemma augment_width w data out : of_width w data -> augment_data true 3 data = Ok out -> of_width w out.
Proof.
  intros W E. unfold augment_data in E. destruct (reflect_dataset data) as [refs|e|] eqn:Er; cbn [bind] in E; try discriminate.
  cbn [rotate_dataset] in E. injection E as <-. intros d' H. apply in_flat_map in H. destruct H as (d & Hd & H).
  assert (C : d_context d' = d_context d) by (unfold get_transition_rotations in H; apply in_map_iff in H; destruct H as (k & <- & _); reflexivity).
  rewrite C. apply in_app_or in Hd. destruct Hd as [Hd|Hd]; [apply W, Hd|].
  destruct (map_res_in _ _ _ _ Er Hd) as (d0 & H0 & E0). unfold reflect_transition in E0.
  cbn [Nat.eqb negb] in E0. destruct (negb _); [discriminate|]. injection E0 as <-. cbn [d_context]. apply W, H0.
Qed.
Lemma augment_some data out : data <> [] -> augment_data true 3 data = Ok out -> out <> [].
Proof.
  intros Ne E. unfold augment_data in E. destruct (reflect_dataset data) as [refs|e|]; cbn [bind] in E; try discriminate.
  destruct data as [|d data]; [congruence|]. cbn [rotate_dataset app flat_map] in E. intros ->. discriminate.
Qed.

Section Networks.
Context {P ST OS K : Type}.
Variable split : K -> nat -> list K.
Variable optimize : (P -> res R) -> P -> OS -> res (P * OS).
Variable permutation : K -> nat -> list nat.
Variable ly : layers P ST K.
Variable f : apply_type P ST K.
Variable opt_init : P -> OS.
Variable normals : K -> nat -> nat -> list (list R).
Variable width : P -> nat.

Lemma splits_width dr w data n key bootstrap augment fraction trains tests : of_width w data ->
  create_dataset_splits K split dr data n key bootstrap augment fraction = Ok (trains, tests) ->
  forall tr e, In tr trains -> In e tr -> length (e_context e) = (w + 2)%nat.
Proof.
  intros W H. unfold create_dataset_splits in H. set (nc := existsb _ data) in H.
  match type of H with bind ?x _ = _ => destruct x as [ds|e|] eqn:Ed; cbn [bind] in H; try discriminate end.
  assert (D : forall pr, In pr ds -> of_width w (fst pr)).
  { intros pr Hp. destruct bootstrap.
    - destruct nc; [destruct n; [injection Ed as <-; destruct Hp|discriminate]|].
      destruct (map_res_in _ _ _ _ Ed Hp) as (k & _ & E). unfold bootstrap_dataset in E.
      destruct (rows_at data _) as [tr|e|] eqn:Et; cbn [bind] in E; try discriminate.
      assert (fst pr = tr) as ->.
      { match type of E with (match ?l with _ => _ end) = _ => destruct l; [discriminate|] end.
        match type of E with bind ?x _ = _ => destruct x; cbn [bind] in E; try discriminate end. injection E as <-. reflexivity. }
      intros d Hd. apply W. eapply rows_at_in; eauto.
    - destruct (_ && _).
      + destruct nc; [destruct n; [injection Ed as <-; destruct Hp|discriminate]|].
        destruct (map_res_in _ _ _ _ Ed Hp) as (k & _ & E). unfold split_dataset in E.
        destruct (rows_at data (skipn _ _)) as [tr|e|] eqn:Et; cbn [bind] in E; try discriminate.
        destruct (rows_at data (firstn _ _)); cbn [bind] in E; try discriminate. injection E as <-. cbn [fst].
        intros d Hd. apply W. eapply rows_at_in; eauto.
      + destruct (Reqb fraction 0); [|discriminate]. injection Ed as <-. apply repeat_spec in Hp. subst pr. exact W. }
  match type of H with bind ?x _ = _ => destruct x as [tr1|e|] eqn:Et1; cbn [bind] in H; try discriminate end.
  match type of H with bind ?x _ = _ => destruct x as [te1|e|] eqn:Ee1; cbn [bind] in H; try discriminate end.
  match type of H with bind ?x _ = _ => destruct x as [tr2|e|] eqn:Et2; cbn [bind] in H; try discriminate end.
  match type of H with bind ?x _ = _ => destruct x as [te2|e|] eqn:Ee2; cbn [bind] in H; try discriminate end.
  match type of H with bind ?x _ = _ => destruct x as [len|e|] eqn:El; cbn [bind] in H; try discriminate end.
  match type of H with (if ?b then _ else _) = _ => destruct b; [|discriminate] end. injection H as <- _.
  intros tr e Htr He. destruct (map_res_in _ _ _ _ Et2 Htr) as (l & Hl & El2). destruct (map_res_in _ _ _ _ El2 He) as (d & Hd & Ed2).
  assert (Wl : of_width w l).
  { destruct augment.
    - destruct (map_res_in _ _ _ _ Et1 Hl) as (l0 & Hl0 & Ea). apply in_map_iff in Hl0. destruct Hl0 as (pr & <- & Hp).
      eapply augment_width; [apply D, Hp|exact Ea].
    - injection Et1 as <-. apply in_map_iff in Hl. destruct Hl as (pr & <- & Hp). apply D, Hp. }
  destruct (Wl d Hd) as (c & Ec & Lc). unfold to_example in Ed2. rewrite Ec in Ed2. injection Ed2 as <-. cbn [e_context].
  rewrite app_length. cbn. lia.
Qed.

Hypothesis splits : forall k n, length (split k n) = n.
Hypothesis nets : fixed_width ly f optimize width.

Lemma scan_width {B} (g : train_state P ST OS -> B -> res (train_state P ST OS)) l :
  (forall s x s', g s x = Ok s' -> width (ts_params _ _ _ s') = width (ts_params _ _ _ s)) ->
  forall s s', scan_res g s l = Ok s' -> width (ts_params _ _ _ s') = width (ts_params _ _ _ s).
Proof.
  intros G. induction l as [|x l IH]; intros s s' H; cbn in H; [congruence|].
  destruct (g s x) as [s1|e|] eqn:E; cbn [bind] in H; try discriminate. rewrite (IH _ _ H). eapply G, E.
Qed.
Lemma train_step_width key cw rw s batch s' : train_step P ST OS K optimize f key cw rw s batch = Ok s' ->
  width (ts_params _ _ _ s') = width (ts_params _ _ _ s).
Proof.
  unfold train_step. intro H. destruct (batched_loss_fn _ _ _ _ _ _ _ _ _ _ _) as [r|e|]; cbn [bind] in H; try discriminate.
  destruct (optimize _ _ _) as [[q o]|e|] eqn:E; cbn [bind] in H; try discriminate. injection H as <-. cbn. eapply (fw_train _ _ _ _ nets), E.
Qed.
Lemma train_model_width bs ep cw rw tr te key s s' ms : train_model P ST OS K split optimize permutation f bs ep cw rw tr te key s = Ok (s', ms) ->
  width (ts_params _ _ _ s') = width (ts_params _ _ _ s).
Proof.
  unfold train_model. generalize (split key ep). intros keys. revert s ms. induction keys as [|k keys IH]; intros s ms H; cbn in H; [congruence|].
  destruct (do_epoch _ _ _ _ _ _ _ _ _ _ _ _ _ _ _) as [[s1 m]|e|] eqn:E; cbn [bind] in H; try discriminate. cbn [fst] in H.
  destruct (epochs_loop _ _ _ _ _ _ _ _ _ _ _ _ _ s1 keys) as [[s2 ms2]|e|] eqn:E2; cbn [bind] in H; try discriminate. injection H as <- <-.
  rewrite (IH _ _ E2). unfold do_epoch in E.
  destruct (train_epoch _ _ _ _ _ _ _ _ _ _ _ _ _ _) as [[s3 k3]|e|] eqn:E3; cbn [bind] in E; try discriminate.
  destruct (batched_loss_fn _ _ _ _ _ _ te _ _ _ _) as [r|e|]; cbn [bind] in E; try discriminate.
  destruct (batched_loss_fn _ _ _ _ _ _ tr _ _ _ _) as [r'|e|]; cbn [bind] in E; try discriminate. injection E as <- <-.
  unfold train_epoch in E3. destruct bs as [|bs]; [discriminate|]. destruct (batch_indices _ _) as [|b bi]; [discriminate|].
  destruct (map_res _ _) as [bat|e|]; cbn [bind] in E3; try discriminate.
  destruct (scan_res _ _ _) as [s4|e|] eqn:E4; cbn [bind] in E3; try discriminate. injection E3 as <- <-.
  eapply scan_width; [|exact E4]. intros s0 x s0' Hs. eapply train_step_width, Hs.
Qed.
Lemma train_width dr p data key bootstrap p' ms w : of_width w data ->
  train P ST OS K split optimize permutation ly f opt_init dr p data key bootstrap = Ok (p', ms) ->
  (forall q, In q (p_params _ _ _ p') -> width q = (w + 2)%nat) /\ p_context_dim _ _ _ p' = p_context_dim _ _ _ p /\
  p_config _ _ _ p' = p_config _ _ _ p /\
  length (p_params _ _ _ p') = p_num_models _ _ _ p /\ length (p_states _ _ _ p') = p_num_models _ _ _ p.
Proof.
  intros W H. destruct (ensemble_training split optimize permutation ly f opt_init splits dr p data key bootstrap p' ms H) as (_ & _ & _ & L1 & L2 & _ & _ & _ & C1 & _ & C2 & _).
  split; [|auto]. unfold train in H.
  destruct (create_dataset_splits _ _ _ _ _ _ _ _ _) as [[trains tests]|e|] eqn:Es; cbn [bind] in H; try discriminate.
  destruct (train_multiple_models _ _ _ _ _ _ _ _ _ _ _ _ _ _ _) as [models|e|] eqn:Em; cbn [bind] in H; try discriminate. injection H as <- <-.
  cbn [fst snd] in Em. unfold train_multiple_models in Em.
  destruct (length trains =? _)%nat; cbn [negb] in Em; [|discriminate]. destruct (length tests =? _)%nat; cbn [negb] in Em; [|discriminate].
  destruct trains as [|[|e0 tr0] trs]; try discriminate.
  assert (W0 : length (e_context e0) = (w + 2)%nat) by (eapply splits_width; [exact W|exact Es|left; reflexivity|left; reflexivity]).
  cbn [p_params]. intros q Hq. apply in_map_iff in Hq. destruct Hq as ((s & m) & <- & Hs). cbn [fst].
  assert (Z : forall a b c out, zip3_res (fun data (kn : K * (P * ST)) test =>
       train_model P ST OS K split optimize permutation f (cf_batch_size (p_config _ _ _ p)) (cf_epochs (p_config _ _ _ p)) (cf_class_weight (p_config _ _ _ p)) (cf_rate_weight (p_config _ _ _ p)) data test (fst kn)
              (mktrain_state _ _ _ (fst (snd kn)) (snd (snd kn)) (opt_init (fst (snd kn))))) a b c = Ok out ->
     (forall k q0 s0, In (k, (q0, s0)) b -> width q0 = (w + 2)%nat) -> In (s, m) out -> width (ts_params _ _ _ s) = (w + 2)%nat).
  { induction a as [|x a IH]; intros b c out Ez B I; [cbn in Ez; injection Ez as <-; destruct I|].
    destruct b as [|[k [q0 s0]] b]; [cbn in Ez; injection Ez as <-; destruct I|]. destruct c as [|z c]; [cbn in Ez; injection Ez as <-; destruct I|].
    cbn [zip3_res fst snd] in Ez.
    destruct (train_model _ _ _ _ _ _ _ _ _ _ _ _ _ _ _ _) as [[s1 m1]|e|] eqn:Et; cbn [bind] in Ez; try discriminate.
    destruct (zip3_res _ a b c) as [out'|e|] eqn:Ez'; cbn [bind] in Ez; try discriminate. injection Ez as <-. destruct I as [I|I].
    - injection I as <- <-. rewrite (train_model_width _ _ _ _ _ _ _ _ _ _ Et). cbn. eapply B. left. reflexivity.
    - eapply IH; [exact Ez'| |exact I]. intros k' q' s' Hi. eapply B. right. exact Hi. }
  eapply Z; [exact Em| |exact Hs]. intros k q0 s0 Hi. apply in_combine_r in Hi. apply in_map_iff in Hi. destruct Hi as (k0 & E & _).
  rewrite <- W0. replace q0 with (fst (ly_init _ _ _ ly k0 (length (e_context e0)))) by (rewrite E; reflexivity). apply (fw_init _ _ _ _ nets).
Qed.
Lemma scan_out_width {B C} (g : train_state P ST OS -> B -> res (train_state P ST OS * C)) l :
  (forall s x s' c, g s x = Ok (s', c) -> width (ts_params _ _ _ s') = width (ts_params _ _ _ s)) ->
  forall s s' cs, scan_out g s l = Ok (s', cs) -> width (ts_params _ _ _ s') = width (ts_params _ _ _ s).
Proof.
  intros G. induction l as [|x l IH]; intros s s' cs H; cbn in H; [congruence|].
  destruct (g s x) as [[s1 c1]|e|] eqn:E; cbn [bind] in H; try discriminate. cbn [fst snd] in H.
  destruct (scan_out g s1 l) as [[s2 c2]|e|] eqn:E2; cbn [bind] in H; try discriminate. injection H as <- <-. cbn [fst]. rewrite (IH _ _ _ E2). eapply G, E.
Qed.
Lemma distill_width p data bs ep bt p' losses w : of_width w data -> data <> [] ->
  distill P ST OS K split optimize ly f opt_init normals p data bs ep bt = Ok (p', losses) ->
  (forall q, In q (p_params _ _ _ p') -> width q = (w + 2)%nat) /\ p_context_dim _ _ _ p' = p_context_dim _ _ _ p /\
  p_config _ _ _ p' = p_config _ _ _ p /\ length (p_params _ _ _ p') = 1%nat /\ length (p_states _ _ _ p') = 1%nat.
Proof.
  intros W Ne H. unfold distill in H. destruct (map_res to_example data) as [ex|e|] eqn:Ex; cbn [bind] in H; try discriminate.
  set (dim := match map e_context ex with [] => 0%nat | r :: _ => length r end) in H.
  assert (Dw : dim = (w + 2)%nat).
  { destruct data as [|d data]; [congruence|]. cbn in Ex. destruct (to_example d) as [e0|e|] eqn:Ed; cbn [bind] in Ex; try discriminate.
    destruct (map_res to_example data) as [ex'|e|]; cbn [bind] in Ex; try discriminate. injection Ex as <-. unfold dim. cbn [map].
    destruct (W d (or_introl eq_refl)) as (c & Ec & Lc). unfold to_example in Ed. rewrite Ec in Ed. injection Ed as <-. cbn [e_context]. rewrite app_length. cbn. lia. }
  match type of H with bind ?x _ = _ => destruct x as [[[s rng] ls]|e|] eqn:Em; cbn [bind] in H; try discriminate end. injection H as <- <-.
  cbn [p_params p_states p_context_dim p_config length]. split; [|auto]. intros q [<-|[]].
  unfold distill_multiple_models_to_single in Em. rewrite !map_length, seq_length in Em.
  destruct (ly_init _ _ _ ly _ dim) as [q0 s0] eqn:Eq.
  assert (W0 : width q0 = (w + 2)%nat).
  { rewrite <- Dw. match type of Eq with ly_init _ _ _ ly ?k dim = _ => rewrite <- (fw_init _ _ _ _ nets k dim) end. rewrite Eq. reflexivity. }
  revert W0. revert Em. generalize (opt_init q0). intro o0.
    generalize (key_at K split (p_rng P ST K p) 2 0). intro k0.
  change (width q0) with (width (ts_params _ _ _ (mktrain_state P ST OS q0 s0 o0))). generalize (mktrain_state P ST OS q0 s0 o0). clear Eq.
  revert s rng ls k0. induction ep as [|ep IH]; intros s rng ls k0 st Em W0; cbn [distill_loop] in Em; [injection Em as <- _ _; exact W0|].
  destruct (distill_train_epoch _ _ _ _ _ _ _ _ _ _ _ _ _ _ st k0) as [[[s1 k1] l1]|e|] eqn:E1; cbn [bind] in Em; try discriminate.
  destruct (distill_loop _ _ _ _ _ _ _ _ _ _ _ _ _ _ ep s1 k1) as [[[s2 k2] l2]|e|] eqn:E2; cbn [bind] in Em; try discriminate.
  injection Em as <- _ _. eapply IH; [exact E2|]. rewrite <- W0. unfold distill_train_epoch in E1.
  destruct (scan_out _ st _) as [[s3 c3]|e|] eqn:E3; cbn [bind] in E1; try discriminate.
  destruct (split k0 bt); [discriminate|]. injection E1 as <- _ _. cbn [fst]. eapply scan_out_width; [|exact E3].
  intros s4 x s5 c5 H5. unfold distill_train_step in H5. match type of H5 with bind ?x _ = _ => destruct x as [l5|e|] end; cbn [bind] in H5; try discriminate.
  destruct (optimize _ _ _) as [[q5 o5]|e|] eqn:E5; cbn [bind] in H5; try discriminate. injection H5 as <- _. cbn. eapply (fw_train _ _ _ _ nets), E5.
Qed.

Lemma by_column_length g rows w : rows <> [] -> (forall r, In r rows -> length r = w) -> length (by_column g rows) = w.
Proof. intros Ne L. unfold by_column. rewrite map_length, seq_length. destruct rows as [|r rows]; [congruence|]. apply L. left. reflexivity. Qed.

(** the numbers of context entries the configuration asks for *)
Definition asked (cf : config) : nat := ((if cf_use_current cf then 1 else 0) + (if cf_use_voltage cf then 1 else 0))%nat.

Lemma made_predictor cf key p : new_predictor P ST K split ly key 2 cf = Ok p ->
  p_context_dim _ _ _ p = (2 + asked cf)%nat /\ p_config _ _ _ p = cf /\ p_num_models _ _ _ p = cf_num_models cf.
Proof.
  unfold new_predictor, asked, nat_of_bool. intro H. destruct (split key _) as [|rng [|k ks]]; try discriminate. injection H as <-. cbn. split; [|auto].
  destruct (cf_use_current cf), (cf_use_voltage cf); reflexivity.
Qed.

(** ** The classification network *)

(** its contexts have one entry more than the configuration asks for, the dwell
    time.  It is never saved: the script always ends with an exception, and the
    directory has at most a new checkpoint. *)
Theorem classification_network_refuted : forall dr cf stacked augmented key bootstrap do_distill dir r dir',
  stacked <> [] -> of_width (asked cf + 1) stacked -> augment_data true 3 stacked = Ok augmented ->
  network_main P ST OS K split optimize permutation ly f opt_init normals dr cf stacked augmented key bootstrap do_distill dir = (r, dir') ->
  (forall p, r <> Ok p) /\ sv_model _ _ _ dir' = sv_model _ _ _ dir /\ sv_config _ _ _ dir' = sv_config _ _ _ dir /\
  (forall step, step <> 0%nat -> sv_params _ _ _ dir' step = sv_params _ _ _ dir step) /\
  (dir' <> dir -> r = Raise ValueError /\ exists params, sv_params _ _ _ dir' 0%nat = Some params).
Proof.
  intros dr cf stacked augmented key bootstrap dd dir r dir' Ne W A H. unfold network_main in H.
  assert (Same : forall e, (Raise e : res (predictor P ST K), dir) = (r, dir') -> 
     (forall p, r <> Ok p) /\ sv_model _ _ _ dir' = sv_model _ _ _ dir /\ sv_config _ _ _ dir' = sv_config _ _ _ dir /\
     (forall step, step <> 0%nat -> sv_params _ _ _ dir' step = sv_params _ _ _ dir step) /\
     (dir' <> dir -> r = Raise ValueError /\ exists params, sv_params _ _ _ dir' 0%nat = Some params)).
  { intros e E. injection E as <- <-. repeat split; try discriminate; intros; congruence. }
  assert (SameF : (OutOfFuel : res (predictor P ST K), dir) = (r, dir') -> 
     (forall p, r <> Ok p) /\ sv_model _ _ _ dir' = sv_model _ _ _ dir /\ sv_config _ _ _ dir' = sv_config _ _ _ dir /\
     (forall step, step <> 0%nat -> sv_params _ _ _ dir' step = sv_params _ _ _ dir step) /\
     (dir' <> dir -> r = Raise ValueError /\ exists params, sv_params _ _ _ dir' 0%nat = Some params)).
  { intros E. injection E as <- <-. repeat split; try discriminate; intros; congruence. }
  destruct (new_predictor _ _ _ _ _ _ _ _) as [p|e|] eqn:En; [|eapply Same, H|apply SameF, H].
  destruct (made_predictor _ _ _ En) as (Cd & Cc & _).
  destruct (train _ _ _ _ _ _ _ _ _ _ _ _ _ _ _) as [[p1 ms]|e|] eqn:Et; [|eapply Same, H|apply SameF, H].
  destruct (train_width _ _ _ _ _ _ _ _ W Et) as (W1 & D1 & _).
  set (dp := if dd then _ else _) in H.
  assert (Q : (exists p2 l2, dp = Ok (p2, l2) /\ (forall q, In q (p_params _ _ _ p2) -> width q = (asked cf + 1 + 2)%nat) /\ p_context_dim _ _ _ p2 = (2 + asked cf)%nat) \/
    (exists e, dp = Raise e) \/ dp = OutOfFuel).
  { unfold dp. destruct dd.
    - destruct (distill _ _ _ _ _ _ _ _ _ _ _ _ _ _ _) as [[p2 l2]|e|] eqn:Ed; [|right; left; eauto|right; right; reflexivity].
      left. exists p2, l2. split; [reflexivity|].
      destruct (distill_width _ _ _ _ _ _ _ _ (augment_width _ _ _ W A) (augment_some _ _ Ne A) Ed) as (W2 & D2 & _). split; [exact W2|congruence].
    - left. exists p1, []. split; [reflexivity|]. split; [exact W1|congruence]. }
  clearbody dp. destruct Q as [(p2 & l2 & -> & W2 & D2) | [(e & ->)| ->]]; [|eapply Same, H|apply SameF, H].
  destruct (contexts_of _ _ W) as (rows & Er & Lr & Rw). rewrite Er in H.
  assert (Nr : rows <> []) by (intros ->; destruct stacked; [congruence|discriminate]).
  pose proof (by_column_length median rows _ Nr Rw) as Lm. set (med := by_column median rows) in *.
  unfold save, package_model in H. rewrite Lm, D2 in H.
  destruct (Nat.ltb_spec (2 + asked cf) (asked cf + 1)); [lia|].
  replace (2 + asked cf - (asked cf + 1))%nat with 1%nat in H by lia.
  unfold call_package in H. cbn [pk_traced pk_fixed pk_input repeat length Nat.eqb negb] in H.
  assert (Er1 : run_traced P ST K f (Some med) (p_params _ _ _ p2, p_states _ _ _ p2, p_rng _ _ _ p2) [[0]] = Raise ValueError).
  { unfold run_traced, batch_apply. cbn [map]. destruct (combine _ _) as [|[q st] l] eqn:Ec; [reflexivity|]. cbn [map_res fst snd].
    rewrite (fw_rejects _ _ _ _ nets q st _ [med ++ [0]] false (med ++ [0])); [reflexivity|left; reflexivity|].
    rewrite (W2 q); [rewrite app_length; cbn; lia|]. eapply in_combine_l. rewrite Ec. left. reflexivity. }
  rewrite Er1 in H. cbn [bind] in H. injection H as <- <-. cbn [sv_model sv_config sv_params].
  split; [discriminate|]. split; [reflexivity|]. split; [reflexivity|]. split.
  - intros step N. apply Nat.eqb_neq in N. rewrite N. reflexivity.
  - intros _. split; [reflexivity|]. eexists. reflexivity.
Qed.

(** ** The rate network *)

Lemma saves_one p2 dir cf med : p_context_dim _ _ _ p2 = (2 + asked cf)%nat -> length med = asked cf -> p_config _ _ _ p2 = cf ->
  length (p_params _ _ _ p2) = 1%nat -> length (p_states _ _ _ p2) = 1%nat -> (forall q, In q (p_params _ _ _ p2) -> width q = (asked cf + 2)%nat) ->
  exists p3 dir', save P ST K f p2 dir 0 (Some med) = (Ok tt, dir', p3) /\
    sv_params _ _ _ dir' 0%nat = Some (p_params _ _ _ p2) /\ sv_config _ _ _ dir' = Some cf /\
    sv_model _ _ _ dir' = Some (Some med, 2%nat, (p_params _ _ _ p2, p_states _ _ _ p2, p_rng _ _ _ p2)).
Proof.
  intros D2 Lm C2 L1 L2 W2. unfold save, package_model. rewrite Lm, D2.
  destruct (Nat.ltb_spec (2 + asked cf) (asked cf)); [lia|].
  replace (2 + asked cf - asked cf)%nat with 2%nat by lia.
  unfold call_package. cbn [pk_traced pk_fixed pk_input repeat length Nat.eqb negb].
  destruct (p_params _ _ _ p2) as [|q [|q' qs]] eqn:Eq; try discriminate. destruct (p_states _ _ _ p2) as [|st [|st' sts]] eqn:Est; try discriminate.
  unfold run_traced, batch_apply. cbn [map combine map_res fst snd].
  destruct (fw_accepts _ _ _ _ nets q st (p_rng _ _ _ p2) (med ++ [0; 0]) false) as (o & s' & Eo).
  { rewrite (W2 q (or_introl eq_refl)), app_length. cbn. lia. }
  rewrite Eo. cbn [fmap_res fst bind].
  do 2 eexists. split; [reflexivity|]. cbn [sv_params sv_config sv_model with_package p_config p_params p_states p_rng Nat.eqb pk_fixed pk_input].
  split; [reflexivity|]. split; [congruence|]. rewrite Eq, Est. reflexivity.
Qed.

(** its contexts have the entries that the configuration asks for: once trained and distilled it is saved, and
    the directory has the parameters, the model for beam positions and the configuration *)
Theorem rate_network_saved : forall dr cf stacked augmented key bootstrap dir p ms p1 p2 losses,
  stacked <> [] -> of_width (asked cf) stacked -> augment_data true 3 stacked = Ok augmented ->
  new_predictor P ST K split ly (key_at K split key 2 0) 2 cf = Ok p ->
  train P ST OS K split optimize permutation ly f opt_init dr p stacked (key_at K split key 2 1) bootstrap = Ok (p1, ms) ->
  distill P ST OS K split optimize ly f opt_init normals p1 augmented (4 * 1024) (100 * 100) 10 = Ok (p2, losses) ->
  exists p3 dir' rows, network_main P ST OS K split optimize permutation ly f opt_init normals dr cf stacked augmented key bootstrap true dir = (Ok p3, dir') /\
    all_contexts stacked = Some rows /\
    sv_params _ _ _ dir' 0%nat = Some (p_params _ _ _ p2) /\ sv_config _ _ _ dir' = Some cf /\
    sv_model _ _ _ dir' = Some (Some (by_column median rows), 2%nat, (p_params _ _ _ p2, p_states _ _ _ p2, p_rng _ _ _ p2)).
Proof.
  intros dr cf stacked augmented key bootstrap dir p ms p1 p2 losses Ne W A En Et Ed.
  destruct (made_predictor _ _ _ En) as (Cd & Cc & _).
  destruct (train_width _ _ _ _ _ _ _ _ W Et) as (W1 & D1 & C1 & _).
  destruct (distill_width _ _ _ _ _ _ _ _ (augment_width _ _ _ W A) (augment_some _ _ Ne A) Ed) as (W2 & D2 & C2 & L1 & L2).
  destruct (contexts_of _ _ W) as (rows & Er & Lr & Rw).
  assert (Nr : rows <> []) by (intros ->; destruct stacked; [congruence|discriminate]).
  destruct (saves_one p2 dir cf (by_column median rows)) as (p3 & dir' & Es & H1 & H2 & H3); try assumption; try congruence.
  { apply by_column_length; assumption. }
  exists p3, dir', rows. split; [|auto]. unfold network_main. rewrite En, Et, Ed, Er, Es. reflexivity.
Qed.

(** without distillation a single network is saved *)
Theorem rate_network_single : forall dr cf stacked augmented key bootstrap dir p ms p1,
  stacked <> [] -> of_width (asked cf) stacked -> cf_num_models cf = 1%nat ->
  new_predictor P ST K split ly (key_at K split key 2 0) 2 cf = Ok p ->
  train P ST OS K split optimize permutation ly f opt_init dr p stacked (key_at K split key 2 1) bootstrap = Ok (p1, ms) ->
  exists p3 dir' rows, network_main P ST OS K split optimize permutation ly f opt_init normals dr cf stacked augmented key bootstrap false dir = (Ok p3, dir') /\
    all_contexts stacked = Some rows /\
    sv_params _ _ _ dir' 0%nat = Some (p_params _ _ _ p1) /\ sv_config _ _ _ dir' = Some cf /\
    sv_model _ _ _ dir' = Some (Some (by_column median rows), 2%nat, (p_params _ _ _ p1, p_states _ _ _ p1, p_rng _ _ _ p1)).
Proof.
  intros dr cf stacked augmented key bootstrap dir p ms p1 Ne W N En Et.
  destruct (made_predictor _ _ _ En) as (Cd & Cc & Cn).
  destruct (train_width _ _ _ _ _ _ _ _ W Et) as (W1 & D1 & C1 & L1 & L2).
  destruct (contexts_of _ _ W) as (rows & Er & Lr & Rw).
  assert (Nr : rows <> []) by (intros ->; destruct stacked; [congruence|discriminate]).
  destruct (saves_one p1 dir cf (by_column median rows)) as (p3 & dir' & Es & H1 & H2 & H3); try assumption; try congruence.
  { apply by_column_length; assumption. }
  exists p3, dir', rows. split; [|auto]. unfold network_main. rewrite En, Et, Er, Es. reflexivity.
Qed.

(** and several are not: the script ends with an exception, and there is no model to load *)
Theorem ensemble_not_saved : forall dr cf stacked augmented key bootstrap dir r dir',
  cf_num_models cf <> 1%nat ->
  network_main P ST OS K split optimize permutation ly f opt_init normals dr cf stacked augmented key bootstrap false dir = (r, dir') ->
  (forall p, r <> Ok p) /\ sv_model _ _ _ dir' = sv_model _ _ _ dir /\ sv_config _ _ _ dir' = sv_config _ _ _ dir.
Proof.
  intros dr cf stacked augmented key bootstrap dir r dir' N H. unfold network_main in H.
  destruct (new_predictor _ _ _ _ _ _ _ _) as [p|e|] eqn:En; [|injection H as <- <-; repeat split; discriminate..].
  destruct (made_predictor _ _ _ En) as (Cd & Cc & Cn).
  destruct (train _ _ _ _ _ _ _ _ _ _ _ _ _ _ _) as [[p1 ms]|e|] eqn:Et; [|injection H as <- <-; repeat split; discriminate..].
  destruct (ensemble_training split optimize permutation ly f opt_init splits dr p stacked _ bootstrap p1 ms Et) as (_ & _ & _ & L1 & L2 & _).
  destruct (all_contexts stacked) as [rows|]; [|injection H as <- <-; repeat split; discriminate].
  unfold save, package_model in H.
  destruct (_ <? _)%nat; [injection H as <- <-; repeat split; discriminate|].
  unfold call_package in H. cbn [pk_traced pk_fixed pk_input] in H. rewrite repeat_length, Nat.eqb_refl in H. cbn [negb] in H.
  match type of H with context [run_traced P ST K f ?c ?t ?x] => assert (F : forall o, run_traced P ST K f c t x <> Ok o); [|destruct (run_traced P ST K f c t x) as [o|e|]] end.
  { intro o. unfold run_traced, batch_apply. destruct (map_res _ _) as [outs|e|] eqn:Eo; cbn [bind]; try discriminate.
    apply map_res_Ok in Eo. apply Forall2_len in Eo. rewrite combine_length, L1, L2, Nat.min_id, Cn in Eo.
    destruct outs as [|o1 [|o2 os]]; try discriminate. cbn in Eo. congruence. }
  - exfalso. eapply F. reflexivity.
  - cbn [bind] in H. injection H as <- <-. repeat split; discriminate.
  - cbn [bind] in H. injection H as <- <-. repeat split; discriminate.
Qed.
End Networks.
Print Assumptions classification_network_refuted.
Print Assumptions rate_network_saved.
Print Assumptions rate_network_single.
Print Assumptions ensemble_not_saved.

(** two networks that only know their width, one datapoint, one epoch *)
Definition toy_split (k : unit) (n : nat) : list unit := repeat k n.
Definition toy_layers : layers nat unit unit := mklayers nat unit unit (fun _ s x _ => (x, s)) (fun _ _ _ x => Ok x) (fun _ d => (d, tt)).
Definition toy_net : apply_type nat unit unit := fun q s _ x _ =>
  if forallb (fun row => (length row =? q)%nat) x then Ok (map (fun _ => [1; 1; 1; 1]) x, s) else Raise ValueError.
Definition toy_optimize (loss : nat -> res R) (q : nat) (o : unit) : res (nat * unit) := Ok (q, o).
Definition toy_normals (k : unit) (n d : nat) : list (list R) := repeat (repeat 0 d) n.
Definition toy_data (dwell : list R) : list datapoint := [mkdatapoint 1 (1 / 2) [1; 2; 3] (mkpt 1 0) (Some (dwell ++ [1 / 5]))].
Definition toy_config (n : nat) : config := mkconfig n true false 1 1 1 1 false 0.
Definition toy_draws : draws unit := mkdraws unit (fun _ n => seq 0 n) (fun _ n => seq 0 n) (fun l => l).
Definition toy_dir : saved nat unit unit := mksaved nat unit unit (fun _ => None) None None.

Lemma toy_fixed : fixed_width toy_layers toy_net toy_optimize (fun q => q).
Proof.
  split.
  - reflexivity.
  - intros loss q o q' o' H. injection H as <- _. reflexivity.
  - intros q s k x b row Hr N. unfold toy_net. destruct (forallb _ x) eqn:E; [|reflexivity].
    rewrite forallb_forall in E. specialize (E _ Hr). apply Nat.eqb_eq in E. congruence.
  - intros q s k row b L. unfold toy_net. cbn. apply Nat.eqb_eq in L. rewrite L. cbn. eauto.
Qed.
Lemma toy_net_ok q s k x b : (forall row, In row x -> length row = q) -> toy_net q s k x b = Ok (map (fun _ => [1; 1; 1; 1]) x, s).
Proof. intro H. unfold toy_net. replace (forallb _ x) with true; [reflexivity|]. symmetry. apply forallb_forall. intros row Hr. apply Nat.eqb_eq, H, Hr. Qed.

Lemma toy_predictor : new_predictor nat unit unit toy_split toy_layers tt 2 (toy_config 2) =
  Ok (mkpredictor nat unit unit (repeat 3%nat 2) (repeat tt 2) tt 2 3 (toy_config 2) None).
Proof. reflexivity. Qed.
Lemma toy_train : forall dwell, exists p1 ms, train nat unit unit unit toy_split toy_optimize (fun _ n => seq 0 n) toy_layers toy_net (fun _ => tt) toy_draws
    (mkpredictor nat unit unit (repeat 3%nat 2) (repeat tt 2) tt 2 3 (toy_config 2) None) (toy_data dwell) tt false = Ok (p1, ms) /\
    p_params _ _ _ p1 = repeat (length dwell + 3)%nat 2 /\ p_states _ _ _ p1 = repeat tt 2.
Proof.
  intro dwell. unfold train. cbn [p_config p_num_models toy_config cf_val_frac cf_augment].
  assert (Es : create_dataset_splits unit toy_split toy_draws (toy_data dwell) 2 (key_at unit toy_split tt 3 1) false false 0 =
    Ok (repeat [mkexample 1 (1 / 2) ((dwell ++ [1 / 5]) ++ [1; 0])] 2, repeat [mkexample 1 (1 / 2) ((dwell ++ [1 / 5]) ++ [1; 0])] 2)).
  { unfold create_dataset_splits. replace (Rltb 0 1 && Rltb 0 0) with false; [|symmetry; apply andb_false_iff; right; apply Rltb_false; lra].
    replace (Reqb 0 0) with true; [|symmetry; apply Reqb_true; reflexivity]. reflexivity. }
  rewrite Es. cbn [bind fst snd].
  set (e := mkexample 1 (1 / 2) ((dwell ++ [1 / 5]) ++ [1; 0])).
  assert (Le : length (e_context e) = (length dwell + 3)%nat) by (cbn [e e_context]; rewrite !app_length; cbn; lia).
  assert (B : forall b cw rw, exists r, batched_loss_fn nat unit unit toy_net (length (e_context e)) tt [e] tt b cw rw = Ok r /\ lr_state _ r = tt).
  { intros b cw rw. unfold batched_loss_fn. rewrite toy_net_ok by (intros row [<-|[]]; reflexivity). cbn [bind]. eexists. split; reflexivity. }
  destruct (B true 1 1) as (r1 & E1 & S1). destruct (B false 1 1) as (r2 & E2 & S2).
  assert (T : exists m, do_epoch nat unit unit unit toy_split toy_optimize (fun _ n => seq 0 n) toy_net 1 1 1 [e] [e]
    (mktrain_state nat unit unit (length (e_context e)) tt tt) tt = Ok (mktrain_state nat unit unit (length (e_context e)) tt tt, m)).
  { unfold do_epoch, train_epoch. cbn [length seq]. unfold batch_indices. 
    cbn [length seq Nat.div Nat.divmod fst snd map firstn skipn Nat.mul Nat.sub map_res rows_at take_idx nth_error bind scan_res].
    unfold rows_at. cbn [take_idx nth_error bind scan_res map_res]. unfold train_step. cbn [ts_params ts_state ts_opt].
    change (key_at unit toy_split tt 2 0) with tt. rewrite E1. cbn [bind toy_optimize fst snd ts_params ts_state ts_opt].
    rewrite S1, E2. cbn [bind fst snd]. eexists. reflexivity. }
  destruct T as (m & T). unfold train_multiple_models. cbn. change ((dwell ++ [1 / 5]) ++ [1; 0]) with (e_context e). rewrite T. cbn.
  do 2 eexists. split; [reflexivity|]. cbn [p_params p_states]. rewrite <- Le. split; reflexivity.
Qed.

Lemma toy_step_ok q m sc n st : length m = q -> length sc = q -> exists l, distill_train_step nat unit unit unit toy_split toy_optimize toy_net toy_normals
  [q; q] [tt; tt] n m sc (mktrain_state nat unit unit q tt st) tt = Ok (mktrain_state nat unit unit q tt st, l).
Proof.
  intros Lm Ls. unfold distill_train_step. cbn [ts_params ts_state ts_opt].
  set (x := synthetic _ _ _ _ _ _).
  assert (X : forall row, In row x -> length row = q).
  { intros row Hr. unfold x, synthetic in Hr. apply in_map_iff in Hr. destruct Hr as (z & <- & Hz). apply repeat_spec in Hz. subst z.
    rewrite map_length, !combine_length, repeat_length. lia. }
  unfold distill_loss, distill_targets, batch_apply. cbn [combine map_res fst snd]. rewrite !toy_net_ok by exact X. cbn [fmap_res fst bind snd toy_optimize].
  eexists. reflexivity.
Qed.
Lemma toy_loop q m sc n bt st : length m = q -> length sc = q -> forall ep, exists l, distill_loop nat unit unit unit toy_split toy_optimize toy_net toy_normals
  [q; q] [tt; tt] (S bt) n m sc ep (mktrain_state nat unit unit q tt st) tt = Ok (mktrain_state nat unit unit q tt st, tt, l).
Proof.
  intros Lm Ls. induction ep as [|ep (l & IH)]; [exists []; reflexivity|]. cbn [distill_loop].
  assert (S : forall keys, exists c, scan_out (distill_train_step nat unit unit unit toy_split toy_optimize toy_net toy_normals [q; q] [tt; tt] n m sc)
    (mktrain_state nat unit unit q tt st) keys = Ok (mktrain_state nat unit unit q tt st, c)).
  { induction keys as [|[] keys (c & IHk)]; [exists []; reflexivity|]. cbn [scan_out].
    destruct (toy_step_ok q m sc n st Lm Ls) as (l1 & E1). rewrite E1. cbn [bind fst snd]. rewrite IHk. cbn [bind fst snd]. eauto. }
  unfold distill_train_epoch. destruct (S (toy_split tt (Datatypes.S bt))) as (c & E). rewrite E. cbn [bind toy_split repeat fst snd].
  destruct (last _ _). rewrite IH. cbn [bind]. eauto.
Qed.

Lemma toy_distill p1 data n bt ep : p_params nat unit unit p1 = [3; 3]%nat -> p_states _ _ _ p1 = [tt; tt] -> of_width 1 data -> data <> [] ->
  exists p2 l, distill nat unit unit unit toy_split toy_optimize toy_layers toy_net (fun _ => tt) toy_normals p1 data n ep (S bt) = Ok (p2, l) /\
    p_params _ _ _ p2 = [3%nat] /\ p_states _ _ _ p2 = [tt].
Proof.
  intros Ep Es W Ne. unfold distill.
  assert (X : exists ex, map_res to_example data = Ok ex /\ length ex = length data /\ forall e, In e ex -> length (e_context e) = 3%nat).
  { clear Ne. induction data as [|d data IH]; [exists []; repeat split; intros e []|].
    destruct IH as (ex & E & L & B); [intros x Hx; apply W; right; exact Hx|]. destruct (W d (or_introl eq_refl)) as (c & Ec & Lc).
    cbn [map_res]. unfold to_example at 1. rewrite Ec, E. cbn [bind]. eexists. split; [reflexivity|]. split; [cbn; congruence|].
    intros e [<-|He]; [cbn [e_context]; rewrite app_length, Lc; reflexivity|auto]. }
  destruct X as (ex & E & L & B). rewrite E. cbn [bind].
  assert (D : match map e_context ex with [] => 0%nat | r :: _ => length r end = 3%nat).
  { destruct ex as [|e ex]; [destruct data; [congruence|discriminate]|]. cbn [map]. apply B. left. reflexivity. }
  rewrite D, Ep, Es. unfold distill_multiple_models_to_single. rewrite map_length, seq_length. cbn [toy_layers ly_init].
  match goal with |- context [key_at unit toy_split ?k 2 0] => destruct (key_at unit toy_split k 2 0) end.
  match goal with |- context [distill_loop _ _ _ _ _ _ _ _ _ _ _ _ ?m ?sc _ _ _] => destruct (toy_loop 3 m sc n bt tt eq_refl eq_refl ep) as (l & El) end.
  rewrite El. cbn [bind]. do 2 eexists. split; [reflexivity|]. split; reflexivity.
Qed.

Example network_run_nonvacuous :
  fixed_width toy_layers toy_net toy_optimize (fun q => q) /\
  (exists aug p3 dir', augment_data true 3 (toy_data []) = Ok aug /\
    network_main nat unit unit unit toy_split toy_optimize (fun _ n => seq 0 n) toy_layers toy_net (fun _ => tt) toy_normals toy_draws
      (toy_config 2) (toy_data []) aug tt false true toy_dir = (Ok p3, dir') /\
    sv_model _ _ _ dir' = Some (Some [1 / 5], 2%nat, ([3%nat], [tt], tt))) /\
  (exists aug dir', augment_data true 3 (toy_data [2]) = Ok aug /\ of_width (asked (toy_config 2) + 1) (toy_data [2]) /\
    network_main nat unit unit unit toy_split toy_optimize (fun _ n => seq 0 n) toy_layers toy_net (fun _ => tt) toy_normals toy_draws
      (toy_config 2) (toy_data [2]) aug tt false false toy_dir = (Raise ValueError, dir') /\ sv_params _ _ _ dir' 0%nat = Some [4; 4]%nat).
Proof.
  split; [exact toy_fixed|]. split.
  - destruct (toy_train []) as (p1 & ms & Et & Ep & Es). cbn in Ep, Es.
    assert (A : exists aug, augment_data true 3 (toy_data []) = Ok aug) by (eexists; reflexivity). destruct A as (aug & A).
    assert (W : of_width (asked (toy_config 2)) (toy_data [])) by (intros d [<-|[]]; eexists; split; reflexivity).
    destruct (toy_distill p1 aug (4 * 1024) 9 (100 * 100) Ep Es (augment_width _ _ _ W A) ltac:(eapply augment_some; [|exact A]; discriminate)) as (p2 & l & Ed & Ep2 & Es2).
    destruct (rate_network_saved toy_split toy_optimize (fun _ n => seq 0 n) toy_layers toy_net (fun _ => tt) toy_normals (fun q => q)
      (fun k n => repeat_length k n) toy_fixed toy_draws (toy_config 2) (toy_data []) aug tt false toy_dir _ ms p1 p2 l ltac:(discriminate) W A toy_predictor Et Ed)
      as (p3 & dir' & rows & H & R & _ & _ & M). cbn in R. injection R as <-.
    exists aug, p3, dir'. split; [exact A|]. split; [exact H|]. rewrite M, Ep2, Es2. destruct (p_rng _ _ _ p2).
    replace (by_column median [[1 / 5]]) with [1 / 5]; [reflexivity|]. unfold by_column, median, column. cbn [width_of length seq map nth Alignment.rsort fold_right Alignment.rinsert Nat.sub Nat.div Nat.divmod fst]. f_equal. lra.
  - destruct (toy_train [2]) as (p1 & ms & Et & Ep & Es). cbn in Ep, Es.
    assert (W : of_width 2 (toy_data [2])) by (intros d [<-|[]]; eexists; split; reflexivity).
    destruct (train_width toy_split toy_optimize (fun _ n => seq 0 n) toy_layers toy_net (fun _ => tt) (fun q => q) (fun k n => repeat_length k n) toy_fixed _ _ _ _ _ _ _ 2 W Et) as (_ & D1 & _).
    do 2 eexists. split; [reflexivity|]. split; [intros d [<-|[]]; eexists; split; reflexivity|].
    unfold network_main. change (key_at unit toy_split tt 2 0) with tt. rewrite toy_predictor. change (key_at unit toy_split tt 2 1) with tt. rewrite Et.
    cbn [all_contexts toy_data d_context app]. unfold save, package_model. rewrite D1. cbn [p_context_dim].
    rewrite (by_column_length _ _ 2) by (try discriminate; intros r [<-|[]]; reflexivity). cbn [Nat.ltb Nat.leb Nat.sub].
    unfold call_package. cbn [pk_traced pk_fixed pk_input repeat length Nat.eqb negb]. unfold run_traced. rewrite Ep, Es. cbn. split; reflexivity.
Qed.
