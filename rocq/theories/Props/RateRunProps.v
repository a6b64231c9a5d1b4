(** Property C119, second part: whole runs of the training script. *)
From Coq Require Import Reals String ZArith List Bool Lia Lra Arith Permutation Sorted.
From Verif Require Import Base.Prelude Model.MicroscopeUtils Model.DataUtils Model.Alignment Model.LearnRates Model.RatePlots
  Model.RateTraining Proofs.BaseFacts Proofs.MaterialFacts Props.ColouringProps Props.AugmentProps Props.DatasetProps Props.RatePlotsProps
  Props.RateVisualProps Props.RateTrainingProps Spec.Augmenting Spec.RatePlots Spec.RateTraining.
Import ListNotations.
Local Open Scope R_scope.

(** ** The contexts of the plots *)
Lemma fold_min_least l : forall x, least (x :: l) (fold_left Rmin l x).
Proof.
  induction l as [|y l IH]; intro x; cbn [fold_left]; [split; [left; reflexivity|intros z [<-|[]]; lra]|].
  destruct (IH (Rmin x y)) as (I & B). split.
  - destruct I as [I|I]; [|right; right; exact I]. rewrite <- I. unfold Rmin. destruct (Rle_dec x y); cbn; auto.
  - assert (H := B _ (or_introl eq_refl)). pose proof (Rmin_l x y). pose proof (Rmin_r x y).
    intros z [<-|[<-|Hz]]; [lra|lra|apply B; right; exact Hz].
Qed.
Lemma fold_max_great l : forall x, greatest (x :: l) (fold_left Rmax l x).
Proof.
  induction l as [|y l IH]; intro x; cbn [fold_left]; [split; [left; reflexivity|intros z [<-|[]]; lra]|].
  destruct (IH (Rmax x y)) as (I & B). split.
  - destruct I as [I|I]; [|right; right; exact I]. rewrite <- I. unfold Rmax. destruct (Rle_dec x y); cbn; auto.
  - assert (H := B _ (or_introl eq_refl)). pose proof (Rmax_l x y). pose proof (Rmax_r x y).
    intros z [<-|[<-|Hz]]; [lra|lra|apply B; right; exact Hz].
Qed.
Lemma median_middle l : l <> [] -> middle l (median l).
Proof.
  intro Ne. exists (rsort l). split; [symmetry; apply rsort_perm|]. split; [apply rsort_sorted|]. unfold median.
  destruct (Nat.Even_or_Odd (length l)) as [(k & Ek)|(k & Ek)].
  - destruct k as [|k]; [exfalso; apply Ne, length_zero_iff_nil; lia|]. right. exists k. split; [lia|].
    rewrite Ek. replace ((2 * S k - 1) / 2)%nat with k by (apply (Nat.div_unique (2 * S k - 1) 2 k 1); lia).
    replace (2 * S k / 2)%nat with (k + 1)%nat by (apply (Nat.div_unique (2 * S k) 2 (k + 1) 0); lia). reflexivity.
  - left. exists k. split; [exact Ek|]. rewrite Ek.
    replace ((2 * k + 1 - 1) / 2)%nat with k by (apply (Nat.div_unique (2 * k + 1 - 1) 2 k 0); lia).
    replace ((2 * k + 1) / 2)%nat with k by (apply (Nat.div_unique (2 * k + 1) 2 k 1); lia). lra.
Qed.

(** column by column: the least, the greatest and the middle value, which lies between *)
Theorem context_columns : forall rows w, rows <> [] -> (forall r, In r rows -> length r = w) ->
  length (by_column min_of rows) = w /\ length (by_column max_of rows) = w /\ length (by_column median rows) = w /\
  forall i, (i < w)%nat -> let col := map (fun r => nth i r 0) rows in
    least col (nth i (by_column min_of rows) 0) /\ greatest col (nth i (by_column max_of rows) 0) /\
    middle col (nth i (by_column median rows) 0).
Proof.
  intros rows w Ne L. assert (W : width_of rows = w) by (destruct rows; [congruence|apply L; left; reflexivity]).
  assert (Q : forall f i, (i < w)%nat -> nth i (by_column f rows) 0 = f (map (fun r => nth i r 0) rows)).
  { intros f i Hi. unfold by_column. rewrite W. rewrite (nth_indep _ 0 (f (column 0 rows))) by (rewrite map_length, seq_length; exact Hi).
    rewrite (map_nth (fun i => f (column i rows))), seq_nth by exact Hi. reflexivity. }
  unfold by_column at 1 2 3. rewrite !map_length, seq_length. repeat (split; [exact W|]).
  intros i Hi. cbv zeta. rewrite !Q by exact Hi. destruct rows as [|r rows]; [congruence|]. cbn [map min_of max_of].
  split; [apply fold_min_least|]. split; [apply fold_max_great|]. apply median_middle. discriminate.
Qed.
Print Assumptions context_columns.

(** ** What the augmented data has *)

(** of data with a move, the augmented data has a move to each neighbour; and a row
    without a move exactly if the data has one *)
Theorem augmented_states : forall data out, Forall (proper 3) data -> augment_data true 3 data = Ok out ->
  ((forall y, (0 <= y <= 3)%Z -> exists d, In d out /\ d_state d = y) <->
   (exists d, In d data /\ d_state d = 0%Z) /\ (exists d, In d data /\ d_state d <> 0%Z)) /\
  (forall d, In d out -> (0 <= d_state d <= 3)%Z).
Proof.
  intros data out P E.
  assert (Back : forall d', In d' out -> exists d, In d data /\ (0 <= d_state d' <= 3)%Z /\ (d_state d' = 0%Z <-> d_state d = 0%Z)).
  { intros d' H. destruct (augment_rows data out d' P E H) as (d & Hd & k & Hk & C). exists d. split; [exact Hd|].
    assert (Pd : proper 3 d) by (rewrite Forall_forall in P; auto).
    destruct C as [T|(m & Mi & T)].
    - destruct (turned_keeps 3 k d d' Pd T) as ((S & _) & Z0 & _). split; [exact S|exact Z0].
    - assert (Pm : proper 3 m) by (apply (mirror_keeps _ _ Mi)).
      destruct (turned_keeps 3 k m d' Pm T) as ((S & _) & Z0 & _). split; [exact S|]. rewrite Z0.
      destruct (mirror_state _ _ Mi) as [X|[X|[X|X]]]; injection X as -> ->; lia. }
  assert (Fwd : forall d k, In d data -> (k < 3)%nat -> exists d', In d' out /\ turned_by 3 k d d').
  { intros d k Hd Hk. destruct (augment_copies data P) as (refs & out' & F & E' & L & C). rewrite E in E'. injection E' as <-.
    apply In_nth_error in Hd. destruct Hd as (i & Hi).
    destruct (C i k d Hk) as (d' & Hd' & T); [rewrite nth_error_app1; [exact Hi|apply nth_error_Some; congruence]|].
    exists d'. split; [eapply nth_error_In; exact Hd'|exact T]. }
  split; [split|].
  - intro A. split.
    + destruct (A 0%Z ltac:(lia)) as (d' & H & Z0). destruct (Back d' H) as (d & Hd & _ & I). exists d. split; [exact Hd|apply I, Z0].
    + destruct (A 1%Z ltac:(lia)) as (d' & H & Z0). destruct (Back d' H) as (d & Hd & _ & I). exists d. split; [exact Hd|]. intro X. apply I in X. lia.
  - intros ((d0 & H0 & S0) & (d1 & H1 & S1)) y Hy. destruct (Z.eq_dec y 0) as [->|Ny].
    + destruct (Fwd d0 0%nat H0 ltac:(lia)) as (d' & Hd' & T). exists d'. split; [exact Hd'|apply (turned_none _ _ _ _ T), S0].
    + assert (Pd : proper 3 d1) by (rewrite Forall_forall in P; auto). destruct Pd as (B & _).
      set (i := Z.to_nat (d_state d1 - 1)). set (j := Z.to_nat (y - 1)).
      destruct (Fwd d1 ((j + 3 - i) mod 3)%nat H1) as (d' & Hd' & T); [apply Nat.mod_upper_bound; lia|].
      exists d'. split; [exact Hd'|].
      destruct (turned_state _ _ _ _ T i) as (j' & (_ & Lj & Cf) & ->); [unfold i; lia|unfold i; lia|].
      assert (j' = j); [|unfold j in *; lia]. rewrite <- Cf.
      assert (i = 0 \/ i = 1 \/ i = 2)%nat as Hi by (unfold i; lia). assert (j = 0 \/ j = 1 \/ j = 2)%nat as Hj by (unfold j; lia).
      destruct Hi as [->|[->| ->]], Hj as [->|[->| ->]]; reflexivity.
  - intros d Hd. destruct (Back d Hd) as (_ & _ & B & _). exact B.
Qed.
Print Assumptions augmented_states.

(** ** A whole run for a classifier *)
Section Runs.
Context {M K : Type}.
Variable fit : classifier -> list (list R) -> list Z -> res M.
Variable score : M -> list (list R) -> list Z -> res R.
Variable predict_proba : M -> list (list R) -> res (list (list R)).
Variable split : K -> nat -> list K.
Variable dr : draws K.

(** the data cannot be split: nothing is written *)
Theorem classifier_run_no_data : forall a stacked n key bootstrap augment fraction visualize e,
  create_dataset_splits K split dr stacked n key bootstrap augment fraction = Raise e ->
  classifier_main fit score predict_proba split dr a stacked n key bootstrap augment fraction visualize = ([], Raise e).
Proof. intros. unfold classifier_main. rewrite H. reflexivity. Qed.

(** every model is trained on its own part of the data: its file, the ensemble,
    the accuracies, and if asked for the three plots *)
Theorem classifier_run : forall a c stacked n key bootstrap augment fraction visualize trains tests contexts rs,
  sklearn fit predict_proba ->
  get_sklearn_classifier (sk_type a) (sk_weight_decay a) (sk_learning_rate a) (sk_epochs a) true = Ok c ->
  create_dataset_splits K split dr stacked n key bootstrap augment fraction = Ok (trains, tests) -> length trains = length tests ->
  Forall2 (fun s r => trained_on fit score c (fst s) (snd s) r) (combine trains tests) rs -> rs <> [] ->
  all_contexts stacked = Some contexts ->
  let models := map (fun r => fst (fst r)) rs in
  exists named written,
    let files := model_files a 0 rs ++ [(sk_type a ++ "_ensemble.joblib", EnsembleFile named)%string] ++
      (if sk_log_metrics a then [("metrics.npz"%string, MetricsFile (map (fun r => snd (fst r)) rs) (map snd rs))] else []) in
    map snd named = models /\
    (visualize = false -> classifier_main fit score predict_proba split dr a stacked n key bootstrap augment fraction visualize = (files, Ok tt)) /\
    (visualize = true -> sk_type a = "svm"%string ->
      classifier_main fit score predict_proba split dr a stacked n key bootstrap augment fraction visualize = (files, Raise AttributeError)) /\
    (visualize = true -> sk_type a <> "svm"%string -> Forall has_states trains -> Exists (fun s => ~ has_all s) trains ->
      classifier_main fit score predict_proba split dr a stacked n key bootstrap augment fraction visualize = (files, Raise ValueError)) /\
    (visualize = true -> sk_type a <> "svm"%string -> Forall has_states trains -> Forall has_all trains ->
      classifier_main fit score predict_proba split dr a stacked n key bootstrap augment fraction visualize = (files ++ written, Ok tt) /\
      exists fs highest lowest average, Forall2 (chances predict_proba) models fs /\
        written = [("max_context_rates.png"%string, PlotFile highest); ("min_context_rates.png"%string, PlotFile lowest);
                   ("avg_context_rates.png"%string, PlotFile average)] /\
        let rate i row := mean (map (fun f => f row (Z.of_nat i + 1)%Z) fs) in
        shows rate 10 300 (Some (by_column max_of contexts)) highest /\
        shows rate 10 300 (Some (by_column min_of contexts)) lowest /\
        shows rate 10 300 (Some (by_column median contexts)) average).
Proof.
  intros a c stacked n key bootstrap augment fraction visualize trains tests contexts rs lib G Es Lt F Ne Ec models.
  destruct (classifiers_written fit score a c (combine trains tests) rs G F) as (named & metrics & Et & En & _ & Em).
  assert (Fm : fitted fit c trains models).
  { unfold fitted, models. clear - F Lt. revert tests rs Lt F. induction trains as [|tr trains IH]; intros [|te tests] rs Lt F; try discriminate; inversion F; subst; [constructor|].
    cbn [map]. constructor; [apply H1|]. apply (IH tests); [cbn in Lt; congruence|assumption]. }
  assert (Nm : models <> []) by (unfold models; destruct rs; [congruence|discriminate]).
  assert (Sv : sk_type a <> "svm"%string -> forall g C, cl_estimator c <> SVC g C).
  { intros N g C X. destruct (classifier_choice (sk_type a) (sk_weight_decay a) (sk_learning_rate a) (sk_epochs a) true) as (H1 & H2 & H3).
    destruct (in_dec String.string_dec (sk_type a) ["sklearn_mlp"; "knn"; "gp"; "random_forest"; "svm"]%string) as [I|I]; [|rewrite H2 in G by exact I; discriminate].
    destruct (H3 I) as (e & He). rewrite (H1 e He) in G. injection G as <-. cbn [cl_estimator] in X. subst e.
    destruct He as [[_ X]|[[_ X]|[[_ X]|[[_ X]|[X _]]]]]; try discriminate. contradiction. }
  set (plots := plot_rates (M := M) (voting_rates predict_proba models) (all_contexts stacked)).
  exists named, (fst plots). cbv zeta. rewrite <- Em. split; [exact En|].
  unfold classifier_main. rewrite Es, Et. fold models. fold plots.
  split; [intros ->; reflexivity|]. 
  destruct (classifier_plots_fail fit predict_proba lib c trains models contexts Fm Nm) as (P1 & P2). rewrite <- Ec in P1, P2. fold plots in P1, P2.
  split; [|split].
  - intros -> Esv. rewrite P1; [rewrite app_nil_r; reflexivity|].
    rewrite Esv in G. cbn in G. injection G as <-. cbn. eauto.
  - intros -> N B X. rewrite (P2 (Sv N) B X). rewrite app_nil_r. reflexivity.
  - intros -> N B A. destruct (classifier_plots fit predict_proba lib c trains models stacked contexts Fm Nm (Sv N) B A Ec) as (fs & h & l & av & C & E & S).
    fold plots in E. rewrite E. cbn [fst]. split; [reflexivity|]. exists fs, h, l, av. auto.
Qed.
End Runs.
Print Assumptions classifier_run_no_data.
Print Assumptions classifier_run.

(** ** A library of classifiers: all labels seen are equally likely *)
Fixpoint label_insert (x : Z) (l : list Z) : list Z :=
  match l with
  | [] => [x]
  | y :: l' => if (x <? y)%Z then x :: l else if (x =? y)%Z then l else y :: label_insert x l'
  end.
Definition labels_of (ys : list Z) : list Z := fold_right label_insert [] ys.
Lemma label_insert_in x l y : In y (label_insert x l) <-> y = x \/ In y l.
Proof.
  induction l as [|z l IH]; cbn; [intuition|]. destruct (x <? z)%Z; [cbn; intuition|]. destruct (Z.eqb_spec x z); [subst; cbn; intuition|].
  cbn. rewrite IH. intuition.
Qed.
Lemma labels_classes ys : classes ys (labels_of ys).
Proof.
  induction ys as [|x ys (S & I)]; [split; [constructor|intro y; reflexivity]|]. cbn [labels_of fold_right]. fold (labels_of ys). split.
  - clear I. induction S as [|z l S IH F]; cbn; [repeat constructor|]. destruct (Z.ltb_spec x z).
    + constructor; [constructor; assumption|]. constructor; [assumption|]. rewrite Forall_forall in *. intros y Hy. specialize (F y Hy). lia.
    + destruct (Z.eqb_spec x z); [constructor; assumption|]. constructor; [exact IH|]. rewrite Forall_forall in *. intros y Hy.
      apply label_insert_in in Hy. destruct Hy as [->|Hy]; [lia|apply F, Hy].
  - intro y. rewrite label_insert_in, I. cbn. intuition.
Qed.
Definition even_fit (c : classifier) (xs : list (list R)) (ys : list Z) : res (option (list Z)) :=
  match cl_estimator c with MLPClassifier _ _ _ => Raise ValueError | SVC _ _ => Ok None | _ => Ok (Some (labels_of ys)) end.
Definition even_proba (m : option (list Z)) (rows : list (list R)) : res (list (list R)) :=
  match m with
  | None => Raise AttributeError
  | Some l => Ok (map (fun _ => map (fun _ => 1 / INR (length l)) l) rows)
  end.
Example sklearn_nonvacuous : sklearn even_fit even_proba /\
  exists m, even_fit (mkclassifier true (KNeighborsClassifier 25)) [[1]; [2]; [3]; [4]; [5]] [0; 1; 3; 2; 1]%Z = Ok m /\ 
    even_proba m [[7]] = Ok [[1 / 4; 1 / 4; 1 / 4; 1 / 4]].
Proof.
  split.
  - split.
    + reflexivity.
    + intros scaled g C xs ys m rows H. injection H as <-. reflexivity.
    + intros [sc e] xs ys m H N. unfold even_fit in H. cbn [cl_estimator] in *.
      destruct e; try discriminate; try (injection H as <-; exists (fun _ _ => 1 / INR (length (labels_of ys))), (labels_of ys); split; [apply labels_classes|reflexivity]).
      exfalso. eapply N. reflexivity.
  - eexists. split; [reflexivity|]. cbn. repeat f_equal; lra.
Qed.

(** two sets with all four states, and all their files *)
Example classifier_run_nonvacuous : exists trains : list (list example), Forall has_states trains /\ Forall has_all trains /\ length trains = 2%nat /\
  fitted even_fit (mkclassifier true (KNeighborsClassifier 25)) trains [Some [0; 1; 2; 3]; Some [0; 1; 2; 3]]%Z.
Proof.
  set (s := [mkexample 3 1 [1; 2]; mkexample 0 1 [1; 3]; mkexample 2 1 [4; 3]; mkexample 1 1 [7; 3]]).
  exists [s; s]. assert (B : has_states s) by (intros e He; cbn in He; decompose [or] He; subst; cbn; lia || contradiction).
  assert (A : has_all s).
  { intros y Hy. assert (y = 0 \/ y = 1 \/ y = 2 \/ y = 3)%Z as [->|[->|[->| ->]]] by lia.
    - exists (nth 1 s (mkexample 0 0 [])). cbn. auto.
    - exists (nth 3 s (mkexample 0 0 [])). cbn. auto 6.
    - exists (nth 2 s (mkexample 0 0 [])). cbn. auto 6.
    - exists (nth 0 s (mkexample 0 0 [])). cbn. auto. }
  split; [apply Forall_cons; [exact B|apply Forall_cons; [exact B|apply Forall_nil]]|].
  split; [apply Forall_cons; [exact A|apply Forall_cons; [exact A|apply Forall_nil]]|].
  split; [reflexivity|]. apply Forall2_cons; [reflexivity|]. apply Forall2_cons; [reflexivity|]. apply Forall2_nil.
Qed.
