(** Property C119: training of classifiers for the rates. *)
From Coq Require Import Reals String ZArith List Bool Lia Lra Arith Permutation Sorted.
From Verif Require Import Base.Prelude Model.MicroscopeUtils Model.DataUtils Model.Alignment Model.LearnRates Model.RatePlots
  Model.RateTraining Proofs.BaseFacts Proofs.MaterialFacts Props.ColouringProps Props.AugmentProps Props.EnsembleProps Props.RatePlotsProps Props.RateVisualProps
  Spec.RatePlots Spec.RateTraining.
Import ListNotations.
Local Open Scope R_scope.

(** ** Which classifiers there are *)
Theorem classifier_choice : forall name wd lr epochs standardize,
  (forall e, estimator_for name wd lr epochs e -> get_sklearn_classifier name wd lr epochs standardize = Ok (mkclassifier standardize e)) /\
  (~ In name ["sklearn_mlp"; "knn"; "gp"; "random_forest"; "svm"]%string ->
    get_sklearn_classifier name wd lr epochs standardize = Raise ValueError) /\
  (In name ["sklearn_mlp"; "knn"; "gp"; "random_forest"; "svm"]%string -> exists e, estimator_for name wd lr epochs e).
Proof.
  intros name wd lr epochs st. split; [|split].
  - intros e [[-> ->]|[[-> ->]|[[-> ->]|[[-> ->]|[-> ->]]]]]; reflexivity.
  - intro N. unfold get_sklearn_classifier.
    assert (Q : forall s, In s ["sklearn_mlp"; "knn"; "gp"; "random_forest"; "svm"]%string -> String.eqb name s = false).
    { intros s Hs. apply String.eqb_neq. intros ->. contradiction. }
    rewrite !Q by (cbn [In]; auto 6). reflexivity.
  - unfold estimator_for. cbn [In]. intros [<-|[<-|[<-|[<-|[<-|[]]]]]]; eexists; eauto 10.
Qed.
Print Assumptions classifier_choice.

Lemma same_lengths_eq {A} (l : list (list A)) x y : same_lengths l = true -> In x l -> In y l -> length x = length y.
Proof.
  destruct l as [|a l]; [intros _ []|]. cbn [same_lengths]. rewrite forallb_forall. intros H Hx Hy.
  assert (Q : forall z, In z (a :: l) -> length z = length a) by (intros z [<-|Hz]; [reflexivity|apply Nat.eqb_eq, H, Hz]).
  rewrite (Q x Hx), (Q y Hy). reflexivity.
Qed.

Section Classifiers.
Context {M : Type}.
Variable fit : classifier -> list (list R) -> list Z -> res M.
Variable score : M -> list (list R) -> list Z -> res R.
Variable predict_proba : M -> list (list R) -> res (list (list R)).

(** one model: trained on the contexts (with positions) and states of the
    training set; both accuracies *)
Definition trained_on (c : classifier) (training testing : list example) (r : M * R * R) : Prop :=
  fit c (map e_context training) (map e_next_state training) = Ok (fst (fst r)) /\
  score (fst (fst r)) (map e_context training) (map e_next_state training) = Ok (snd (fst r)) /\
  score (fst (fst r)) (map e_context testing) (map e_next_state testing) = Ok (snd r).
Definition model_files (a : sk_args) (i : nat) (rs : list (M * R * R)) : list (string * content M) :=
  map (fun ir => (sk_type a ++ "_" ++ decimal (fst ir) ++ ".joblib", ModelFile (fst (fst (snd ir))))%string) (combine (seq i (length rs)) rs).

Lemma train_one c training testing r : train_sklearn_classifier fit score c training testing = Ok r <-> trained_on c training testing r.
Proof.
  unfold train_sklearn_classifier, trained_on. destruct r as [[m tr] te]. cbn [fst snd]. split.
  - destruct (fit _ _ _) as [m'|e|]; cbn [bind]; try discriminate.
    destruct (score m' (map e_context testing) _) as [t|e|] eqn:E1; cbn [bind]; try discriminate.
    destruct (score m' (map e_context training) _) as [t'|e|] eqn:E2; cbn [bind]; try discriminate.
    intro H. injection H as <- <- <-. auto.
  - intros (-> & H1 & H2). cbn [bind]. rewrite H2, H1. reflexivity.
Qed.

Lemma train_all_spec a c sets : get_sklearn_classifier (sk_type a) (sk_weight_decay a) (sk_learning_rate a) (sk_epochs a) true = Ok c ->
  forall i rs, Forall2 (fun s r => trained_on c (fst s) (snd s) r) sets rs ->
  train_all fit score a i sets = (model_files a i rs, Ok rs).
Proof.
  intros G i rs F. revert i. induction F as [|[tr te] r sets rs T F IH]; intro i; [reflexivity|].
  cbn [train_all]. rewrite G. cbn [bind]. cbn [fst snd] in T. apply train_one in T. rewrite T. rewrite IH. reflexivity.
Qed.
Lemma train_all_stops a c sets : get_sklearn_classifier (sk_type a) (sk_weight_decay a) (sk_learning_rate a) (sk_epochs a) true = Ok c ->
  forall tr te e, train_sklearn_classifier fit score c tr te = Raise e -> forall later rs i, Forall2 (fun s r => trained_on c (fst s) (snd s) r) sets rs ->
  train_all fit score a i (sets ++ (tr, te) :: later) = (model_files a i rs, Raise e).
Proof.
  intros G tr te e T later rs i F. revert i. induction F as [|[tr' te'] r sets rs T' F IH]; intro i.
  - cbn [app train_all]. rewrite G. cbn [bind]. rewrite T. reflexivity.
  - cbn [app train_all]. rewrite G. cbn [bind]. cbn [fst snd] in T'. apply train_one in T'. rewrite T', IH. reflexivity.
Qed.

(** ** What is written *)

(** when every classifier is trained: a file for each, then the ensemble of all, then the accuracies *)
Theorem classifiers_written : forall a c sets rs,
  get_sklearn_classifier (sk_type a) (sk_weight_decay a) (sk_learning_rate a) (sk_epochs a) true = Ok c ->
  Forall2 (fun s r => trained_on c (fst s) (snd s) r) sets rs ->
  exists named metrics,
    train_classifiers fit score a sets = (model_files a 0 rs ++ [(sk_type a ++ "_ensemble.joblib", EnsembleFile named)%string] ++ metrics,
                                Ok (map (fun r => fst (fst r)) rs)) /\
    map snd named = map (fun r => fst (fst r)) rs /\
    (forall i, (i < length rs)%nat -> nth_error (map fst named) i = Some (sk_type a ++ "_" ++ decimal i)%string) /\
    metrics = (if sk_log_metrics a then [("metrics.npz"%string, MetricsFile (map (fun r => snd (fst r)) rs) (map snd rs))] else []).
Proof.
  intros a c sets rs G F. unfold train_classifiers. rewrite (train_all_spec a c sets G 0 rs F).
  do 2 eexists. split; [reflexivity|]. split; [|split; [|reflexivity]].
  - rewrite map_length. set (l := map (fun r : M * R * R => fst (fst r)) rs).
    assert (L : length (map (fun i => sk_type a ++ "_" ++ decimal i)%string (seq 0 (length rs))) = length l) by (unfold l; rewrite !map_length, seq_length; reflexivity).
    revert L. generalize (map (fun i => sk_type a ++ "_" ++ decimal i)%string (seq 0 (length rs))). generalize l.
    induction l0 as [|x l0 IH]; intros [|y l1] L; try discriminate; [reflexivity|]. cbn. f_equal. apply IH. cbn in L. congruence.
  - intros i Hi. rewrite map_length.
    assert (Q : forall (A B : Type) (u : list A) (v : list B), length u = length v -> map fst (combine u v) = u).
    { induction u as [|x u IH]; intros [|y v] L; try discriminate; [reflexivity|]. cbn. f_equal. apply IH. cbn in L. congruence. }
    rewrite Q by (rewrite !map_length, seq_length; reflexivity).
    rewrite nth_error_map. rewrite (nth_error_nth' _ 0%nat) by (rewrite seq_length; exact Hi). rewrite seq_nth by exact Hi. reflexivity.
Qed.

(** when one cannot be trained: the files of those before it, and the error *)
Theorem classifiers_stop : forall a c before training testing after rs e,
  get_sklearn_classifier (sk_type a) (sk_weight_decay a) (sk_learning_rate a) (sk_epochs a) true = Ok c ->
  Forall2 (fun s r => trained_on c (fst s) (snd s) r) before rs ->
  train_sklearn_classifier fit score c training testing = Raise e ->
  train_classifiers fit score a (before ++ (training, testing) :: after) = (model_files a 0 rs, Raise e).
Proof.
  intros a c before tr te after rs e G F T. unfold train_classifiers.
  rewrite (train_all_stops a c before G tr te e T after rs 0 F). reflexivity.
Qed.

(** an unknown type: nothing is written *)
Theorem classifier_unknown : forall a set sets, ~ In (sk_type a) ["sklearn_mlp"; "knn"; "gp"; "random_forest"; "svm"]%string ->
  train_classifiers fit score a (set :: sets) = ([], Raise ValueError).
Proof.
  intros a [tr te] sets N. destruct (classifier_choice (sk_type a) (sk_weight_decay a) (sk_learning_rate a) (sk_epochs a) true) as (_ & H & _).
  unfold train_classifiers. cbn [train_all]. rewrite (H N). reflexivity.
Qed.

Hypothesis lib : sklearn fit predict_proba.

(** the multi-layer perceptron of scikit-learn can be asked for and can never be trained *)
Theorem sklearn_mlp_refuted : forall a set sets, sk_type a = "sklearn_mlp"%string ->
  train_classifiers fit score a (set :: sets) = ([], Raise ValueError).
Proof.
  intros a [tr te] sets E. unfold train_classifiers. cbn [train_all]. rewrite E. cbn [get_sklearn_classifier String.eqb bind Ascii.eqb Bool.eqb].
  unfold get_sklearn_classifier. cbn [bind]. unfold train_sklearn_classifier. rewrite (sk_mlp _ _ lib). reflexivity.
Qed.

(** ** The rates of the ensemble *)
Lemma classes_unique ys l l' : classes ys l -> classes ys l' -> l = l'.
Proof.
  intros (S1 & I1) (S2 & I2). assert (I : forall y, In y l <-> In y l') by (intro y; rewrite I1, I2; tauto). clear I1 I2.
  revert l' S2 I. induction l as [|x l IH]; intros l' S2 I.
  - destruct l' as [|y l']; [reflexivity|]. destruct (proj2 (I y) (or_introl eq_refl)).
  - destruct l' as [|y l']; [destruct (proj1 (I x) (or_introl eq_refl))|].
    inversion S1 as [|? ? S1' F1]; inversion S2 as [|? ? S2' F2]; subst. rewrite Forall_forall in F1, F2.
    assert (x = y) as <-.
    { destruct (proj1 (I x) (or_introl eq_refl)) as [->|Hx]; [reflexivity|].
      destruct (proj2 (I y) (or_introl eq_refl)) as [->|Hy]; [reflexivity|]. specialize (F1 _ Hy). specialize (F2 _ Hx). lia. }
    f_equal. apply IH; auto. intro z. specialize (I z). cbn in I. split; intro Hz.
    + destruct (proj1 I (or_intror Hz)) as [->|]; auto. specialize (F1 _ Hz). lia.
    + destruct (proj2 I (or_intror Hz)) as [->|]; auto. specialize (F2 _ Hz). lia.
Qed.
Lemma four_classes ys : (forall y, In y ys -> (0 <= y <= 3)%Z) -> (forall y, (0 <= y <= 3)%Z -> In y ys) -> classes ys [0; 1; 2; 3]%Z.
Proof.
  intros B A. split.
  - repeat constructor; lia.
  - intro y. split; [intro H; apply A; cbn in H; lia|]. intro H. apply B in H. cbn. lia.
Qed.
Lemma few_classes ys l : classes ys l -> (forall y, In y ys -> (0 <= y <= 3)%Z) -> ~ (forall y, (0 <= y <= 3)%Z -> In y ys) -> (length l <= 3)%nat.
Proof.
  intros (S & I) B N. assert (Nd : NoDup l).
  { clear - S. induction S as [|x l S IH F]; constructor; auto. intro H. rewrite Forall_forall in F. specialize (F _ H). lia. }
  assert (X : exists y, (0 <= y <= 3)%Z /\ ~ In y ys).
  { destruct (in_dec Z.eq_dec 0%Z ys), (in_dec Z.eq_dec 1%Z ys), (in_dec Z.eq_dec 2%Z ys), (in_dec Z.eq_dec 3%Z ys);
      try (eexists; split; [|eassumption]; lia).
    exfalso. apply N. intros y Hy. assert (y = 0 \/ y = 1 \/ y = 2 \/ y = 3)%Z as [->|[->|[->| ->]]] by lia; assumption. }
  destruct X as (y & Hy & Ny).
  assert (Inc : incl l (remove Z.eq_dec y [0; 1; 2; 3]%Z)).
  { intros z Hz. apply in_in_remove; [intros ->; apply Ny, I, Hz|]. apply I, B in Hz. cbn. lia. }
  apply NoDup_incl_length in Inc; [|exact Nd].
  assert (length (remove Z.eq_dec y [0; 1; 2; 3]%Z) < 4)%nat; [|lia].
  apply (remove_length_lt Z.eq_dec [0; 1; 2; 3]%Z). cbn. lia.
Qed.

(** the training sets of the models *)
Definition fitted (c : classifier) (sets : list (list example)) (models : list M) : Prop :=
  Forall2 (fun s m => fit c (map e_context s) (map e_next_state s) = Ok m) sets models.
Definition has_states (s : list example) : Prop :=
  (forall e, In e s -> (0 <= e_next_state e <= 3)%Z).
Definition has_all (s : list example) : Prop := forall y, (0 <= y <= 3)%Z -> exists e, In e s /\ e_next_state e = y.

Lemma full_chances c s m : fit c (map e_context s) (map e_next_state s) = Ok m -> (forall g C, cl_estimator c <> SVC g C) ->
  has_states s -> has_all s -> exists chance, chances predict_proba m chance.
Proof.
  intros F N B A. destruct (sk_proba _ _ lib c _ _ m F N) as (ch & l & Cl & P). exists ch. intro rows. rewrite P.
  assert (l = [0; 1; 2; 3]%Z) as ->; [|reflexivity]. eapply classes_unique; [exact Cl|]. apply four_classes.
  - intros y Hy. apply in_map_iff in Hy. destruct Hy as (e & <- & He). apply B, He.
  - intros y Hy. destruct (A y Hy) as (e & He & <-). apply in_map, He.
Qed.

Lemma mean_of_maps (fs : list (list R -> list R)) n rows : fs <> [] -> (forall f row, In f fs -> length (f row) = n) ->
  mean_rows (map (fun f => map f rows) fs) = map (fun row => map (fun j => mean (map (fun f => nth j (f row) 0) fs)) (seq 0 n)) rows.
Proof.
  intros Ne L. destruct (mean_shaped (length rows) n (map (fun f => map f rows) fs)) as ((L1 & L2) & E).
  - destruct fs; [congruence|discriminate].
  - intros o Ho. apply in_map_iff in Ho. destruct Ho as (f & <- & Hf). split; [apply map_length|].
    intros r Hr. rewrite (nth_map_in f rows [] [] r Hr). apply L, Hf.
  - apply nth_error_eq; [rewrite map_length; exact L1|]. intros j Hj. rewrite L1 in Hj.
    rewrite nth_error_map. destruct (nth_error rows j) as [row|] eqn:Er; [|apply nth_error_None in Er; lia]. cbn [option_map].
    destruct (nth_error (mean_rows (map (fun f => map f rows) fs)) j) as [r|] eqn:Em; [|apply nth_error_None in Em; lia].
    f_equal. assert (Lr : length r = n) by (rewrite <- (nth_error_nth _ _ [] Em); apply L2; exact Hj).
    apply nth_error_eq; [rewrite map_length, seq_length; exact Lr|]. intros i Hi. rewrite Lr in Hi.
    rewrite nth_error_map, (nth_error_nth' _ 0%nat) by (rewrite seq_length; exact Hi). rewrite seq_nth by exact Hi. cbn [option_map Nat.add].
    rewrite (nth_error_nth' _ 0) by lia. f_equal. specialize (E j i Hj Hi). unfold entry in E.
    rewrite (nth_error_nth _ _ [] Em) in E. rewrite E. f_equal. rewrite map_map. apply map_ext. intro f.
    f_equal. erewrite nth_error_nth; [reflexivity|]. rewrite nth_error_map, Er. reflexivity.
Qed.

(** the rate towards a neighbour is the mean probability of moving to it *)
Theorem classifier_rates : forall models (fs : list (list R -> Z -> R)) rows, models <> [] ->
  Forall2 (chances predict_proba) models fs ->
  voting_rates predict_proba models rows = Ok (map (fun row =>
    [mean (map (fun f => f row 1%Z) fs); mean (map (fun f => f row 2%Z) fs); mean (map (fun f => f row 3%Z) fs)]) rows).
Proof.
  intros models fs rows Ne F. unfold voting_rates, voting_proba.
  set (g := fun (f : list R -> Z -> R) row => [f row 0%Z; f row 1%Z; f row 2%Z; f row 3%Z]).
  assert (E : map_res (fun m => predict_proba m rows) models = Ok (map (fun f => map (g f) rows) fs)).
  { clear Ne. induction F as [|m f ms fs Hm F IH]; [reflexivity|]. cbn [map_res]. rewrite (Hm rows). cbn [bind]. rewrite IH. reflexivity. }
  rewrite E. cbn [bind].
  assert (S : same_lengths (map (fun p => hd [] p) (map (fun f => map (g f) rows) fs)) = true).
  { rewrite map_map. destruct rows as [|r rows]; cbn [map hd].
    - destruct fs as [|f fs]; [reflexivity|]. cbn [map same_lengths]. apply forallb_forall. intros y Hy. apply in_map_iff in Hy. destruct Hy as (z & <- & _). reflexivity.
    - destruct fs as [|f fs]; [reflexivity|]. cbn [map same_lengths]. apply forallb_forall. intros y Hy. apply in_map_iff in Hy. destruct Hy as (z & <- & _). reflexivity. }
  rewrite S. cbn [bind]. f_equal.
  assert (Nf : fs <> []) by (intros ->; inversion F; subst; congruence).
  replace (map (fun f => map (g f) rows) fs) with (map (fun h => map h rows) (map g fs)) by (rewrite map_map; reflexivity).
  rewrite (mean_of_maps (map g fs) 4 rows).
  - rewrite map_map. apply map_ext. intro row. cbn [seq map tl]. rewrite !map_map. reflexivity.
  - intro X. apply map_eq_nil in X. contradiction.
  - intros h row Hh. apply in_map_iff in Hh. destruct Hh as (f & <- & _). reflexivity.
Qed.

(** ** The plots *)
Lemma plot_file_shows predict (f : nat -> list R -> R) name context :
  (forall rows, predict rows = Ok (map (fun row => [f 0%nat row; f 1%nat row; f 2%nat row]) rows)) ->
  exists best, @plot_file M predict name context = ([(name, PlotFile best)], Ok tt) /\ shows f 10 plot_side context best.
Proof.
  intro P. assert (L1 : (1 <= plot_side * plot_side)%nat) by (unfold plot_side; lia).
  destruct (rate_maxima predict f 10 (plot_side * plot_side) context P L1 (or_intror (ex_intro _ plot_side eq_refl))) as (best & E & L & B).
  rewrite Nat.sqrt_square in B.
  exists best. unfold plot_file. rewrite E. split; [reflexivity|]. split; [exact L|exact B].
Qed.
Lemma plots_shown predict (f : nat -> list R -> R) l :
  (forall rows, predict rows = Ok (map (fun row => [f 0%nat row; f 1%nat row; f 2%nat row]) rows)) ->
  exists bests, @plot_files M predict l = (map (fun nb => (fst (fst nb), PlotFile (snd nb))) (combine l bests), Ok tt) /\
    Forall2 (fun nc best => shows f 10 plot_side (snd nc) best) l bests.
Proof.
  intro P. induction l as [|[name ctx] l (bests & E & F)]; [exists []; split; [reflexivity|constructor]|].
  destruct (plot_file_shows predict f name ctx P) as (best & Eb & Sb). exists (best :: bests). cbn [plot_files]. rewrite Eb, E.
  split; [reflexivity|]. constructor; assumption.
Qed.

(** if every model has seen all four states, the plots show the mean probabilities *)
Theorem classifier_plots : forall c sets models stacked contexts,
  fitted c sets models -> models <> [] -> (forall g C, cl_estimator c <> SVC g C) ->
  Forall has_states sets -> Forall has_all sets -> all_contexts stacked = Some contexts ->
  exists fs highest lowest average, Forall2 (chances predict_proba) models fs /\
    plot_rates (M := M) (voting_rates predict_proba models) (all_contexts stacked) =
      ([("max_context_rates.png"%string, PlotFile highest); ("min_context_rates.png"%string, PlotFile lowest);
        ("avg_context_rates.png"%string, PlotFile average)], Ok tt) /\
    let rate i row := mean (map (fun f => f row (Z.of_nat i + 1)%Z) fs) in
    shows rate 10 300 (Some (by_column max_of contexts)) highest /\
    shows rate 10 300 (Some (by_column min_of contexts)) lowest /\
    shows rate 10 300 (Some (by_column median contexts)) average.
Proof.
  intros c sets models stacked contexts F Ne N B A Ec.
  assert (X : exists fs, Forall2 (chances predict_proba) models fs).
  { clear Ne. induction F as [|s m ss ms Hf F IH]; [exists []; constructor|]. inversion B; inversion A; subst.
    destruct IH as (fs & Hfs); auto. destruct (full_chances c s m Hf N) as (ch & Hch); auto. exists (ch :: fs). constructor; auto. }
  destruct X as (fs & Hfs). exists fs. set (rate := fun (i : nat) row => mean (map (fun f => f row (Z.of_nat i + 1)%Z) fs)).
  unfold plot_rates. rewrite Ec. cbn [option_map].
  destruct (plots_shown (voting_rates predict_proba models) rate
    [("max_context_rates.png"%string, Some (by_column max_of contexts)); ("min_context_rates.png"%string, Some (by_column min_of contexts));
     ("avg_context_rates.png"%string, Some (by_column median contexts))]) as (bests & E & S).
  - intro rows. rewrite (classifier_rates models fs rows Ne Hfs). reflexivity.
  - inversion S as [|x b1 l1 r1 S1 T1 Q1 Q2]; subst. inversion T1 as [|x b2 l2 r2 S2 T2 Q1 Q2]; subst.
    inversion T2 as [|x b3 l3 r3 S3 T3 Q1 Q2]; subst. inversion T3; subst.
    exists b1, b2, b3. split; [exact Hfs|]. split; [exact E|]. cbv zeta. cbn [snd] in S1, S2, S3. auto.
Qed.

(** if some model has not seen all four states, or for a support vector machine,
    there are no plots but an error, after the models have been written *)
Theorem classifier_plots_fail : forall c sets models contexts,
  fitted c sets models -> models <> [] -> 
  ((exists g C, cl_estimator c = SVC g C) ->
    plot_rates (M := M) (voting_rates predict_proba models) (Some contexts) = ([], Raise AttributeError)) /\
  ((forall g C, cl_estimator c <> SVC g C) -> Forall has_states sets -> Exists (fun s => ~ has_all s) sets ->
    plot_rates (M := M) (voting_rates predict_proba models) (Some contexts) = ([], Raise ValueError)).
Proof.
  intros c sets models contexts F Ne.
  set (ctx := by_column max_of contexts).
  set (rows := map (told (Some ctx)) (flat_map (fun b => map (fun a => square_point 10 plot_side a b) (seq 0 plot_side)) (seq 0 plot_side))).
  assert (Go : forall e, visualize_rates (voting_rates predict_proba models) 10 (plot_side * plot_side) (Some ctx) = Raise e ->
    plot_rates (M := M) (voting_rates predict_proba models) (Some contexts) = ([], Raise e)).
  { intros e E. unfold plot_rates. cbn [option_map plot_files]. unfold plot_file. fold ctx. rewrite E. reflexivity. }
  destruct (rate_visual_errors (voting_rates predict_proba models) 10 (plot_side * plot_side) (Some ctx)) as (_ & _ & V1 & V2).
  rewrite Nat.sqrt_square in V1, V2.
  assert (Sq : forall c0, Some ctx = Some c0 -> exists k, (plot_side * plot_side = k * k)%nat) by (intros; eexists; reflexivity).
  split.
  - intros (g & C & Ec). apply Go. apply (V2 rows); [exact Sq|reflexivity|].
    inversion F as [|s m ss ms Hf F']; subst; [congruence|]. unfold voting_rates, voting_proba. cbn [map_res].
    destruct c as [sc es]. cbn [cl_estimator] in Ec. subst es. rewrite (sk_svc _ _ lib _ _ _ _ _ _ rows Hf). reflexivity.
  - intros N B X. apply Go.
    assert (Q : exists gs : list (nat * (list R -> list R)), length gs = length models /\
      map_res (fun m => predict_proba m rows) models = Ok (map (fun g => map (snd g) rows) gs) /\
      (forall g row, In g gs -> length (snd g row) = fst g) /\ (exists g, In g gs /\ (fst g <= 3)%nat)).
    { clear - F N B X lib. induction F as [|s m ss ms Hf F IH]; [inversion X|].
      inversion B as [|? ? B1 B2]; subst. destruct (sk_proba _ _ lib c _ _ m Hf N) as (ch & l & Cl & P).
      assert (Y : exists gs, length gs = length ms /\ map_res (fun m => predict_proba m rows) ms = Ok (map (fun g : nat * (list R -> list R) => map (snd g) rows) gs) /\
        (forall g row, In g gs -> length (snd g row) = fst g)).
      { clear - F N lib. induction F as [|s m ss ms Hf F IH]; [exists []; cbn; repeat split; intros ? ? []|].
        destruct IH as (gs & L & E & Lg). destruct (sk_proba _ _ lib c _ _ m Hf N) as (ch & l & Cl & P).
        exists ((length l, fun row => map (ch row) l) :: gs). cbn [length map_res]. split; [congruence|]. rewrite P. cbn [bind]. rewrite E. split; [reflexivity|].
        intros g row [<-|Hg]; [cbn; apply map_length|apply Lg, Hg]. }
      inversion X as [? ? X1|? ? X1]; subst.
      - destruct Y as (gs & L & E & Lg). exists ((length l, fun row => map (ch row) l) :: gs). cbn [length map_res]. split; [congruence|].
        rewrite P. cbn [bind]. rewrite E. split; [reflexivity|]. split; [intros g row [<-|Hg]; [cbn; apply map_length|apply Lg, Hg]|].
        eexists. split; [left; reflexivity|]. cbn [fst]. eapply few_classes; [exact Cl| |].
        + intros y Hy. apply in_map_iff in Hy. destruct Hy as (e & <- & He). apply B1, He.
        + intro A. apply X1. intros y Hy. apply A in Hy. apply in_map_iff in Hy. destruct Hy as (e & He & H). exists e. auto.
      - destruct (IH B2 X1) as (gs & L & E & Lg & (g0 & Hg0 & L0)). exists ((length l, fun row => map (ch row) l) :: gs). cbn [length map_res]. split; [congruence|].
        rewrite P. cbn [bind]. rewrite E. split; [reflexivity|]. split; [intros g row [<-|Hg]; [cbn; apply map_length|apply Lg, Hg]|].
        exists g0. split; [right; exact Hg0|exact L0]. }
    destruct Q as (gs & Lg & E & Ll & (g0 & Hg0 & L0)).
    assert (Rn : exists r0 rs, rows = r0 :: rs).
    { unfold rows. assert (Ek : exists k, plot_side = S k) by (exists 299%nat; reflexivity). destruct Ek as (k & ->).
      cbn [seq flat_map map app]. eauto. }
    destruct Rn as (r0 & rs & Er).
    assert (Se : map (fun p => hd [] p) (map (fun g : nat * (list R -> list R) => map (snd g) rows) gs) = map (fun g => snd g r0) gs).
    { rewrite map_map. apply map_ext. intro g. rewrite Er. reflexivity. }
    assert (Ee : voting_rates predict_proba models rows =
      if same_lengths (map (fun g => snd g r0) gs) then Ok (map (@tl R) (mean_rows (map (fun g => map (snd g) rows) gs))) else Raise ValueError).
    { unfold voting_rates, voting_proba. rewrite E. cbn [bind]. rewrite Se. destruct (same_lengths _); reflexivity. }
    destruct (same_lengths (map (fun g => snd g r0) gs)) eqn:Es.
    + eapply (V1 rows); [exact Sq|reflexivity|exact Ee|].
      assert (All : forall g, In g gs -> fst g = fst g0).
      { intros g Hg. rewrite <- (Ll g r0 Hg), <- (Ll g0 r0 Hg0).
        apply same_lengths_eq with (1 := Es); [apply (in_map (fun g : nat * (list R -> list R) => snd g r0)), Hg|apply (in_map (fun g : nat * (list R -> list R) => snd g r0)), Hg0]. }
      replace (map (fun g : nat * (list R -> list R) => map (snd g) rows) gs) with (map (fun h => map h rows) (map snd gs)) by (rewrite map_map; reflexivity).
      rewrite (mean_of_maps (map snd gs) (fst g0) rows).
      * rewrite map_map, Er. cbn [map]. eexists. split; [left; reflexivity|].
        assert (Lt : forall (l : list R), length (tl l) = (length l - 1)%nat) by (intros [|? ?]; cbn; lia).
        rewrite Lt, map_length, seq_length. lia.
      * intro Y. apply map_eq_nil in Y. rewrite Y in Hg0. destruct Hg0.
      * intros h row Hh. apply in_map_iff in Hh. destruct Hh as (g & <- & Hg). rewrite (Ll g row Hg). apply All, Hg.
    + apply (V2 rows); [exact Sq|reflexivity|exact Ee].
Qed.
End Classifiers.
Print Assumptions classifiers_written.
Print Assumptions classifiers_stop.
Print Assumptions classifier_unknown.
Print Assumptions sklearn_mlp_refuted.
Print Assumptions classifier_rates.
Print Assumptions classifier_plots.
Print Assumptions classifier_plots_fail.

(** Classifiers and datasets that meet the hypotheses are in RateRunProps:
    sklearn_nonvacuous and classifier_run_nonvacuous. *)
