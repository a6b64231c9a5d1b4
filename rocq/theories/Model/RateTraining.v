(** putting_dune/pipeline/train_rate_learner.py: the classifiers, and main from
    the training on.  Files are named relative to the working directory. *)
From Coq Require Import Reals String ZArith List Bool Arith DecimalString.
From Verif Require Import Base.Prelude Model.MicroscopeUtils Model.DataUtils Model.Alignment Model.LearnRates Model.RatePlots.
Import ListNotations.
Local Open Scope string_scope.
Local Open Scope list_scope.
Local Open Scope R_scope.
Local Open Scope res_scope.

(** * Classifiers *)

(** train_rate_learner.py:130-150: the estimators of scikit-learn, with the
    arguments they are given *)
Inductive estimator :=
| MLPClassifier (alpha : R) (max_iter : nat) (learning_rate : R)
| KNeighborsClassifier (n_neighbors : nat)
| GaussianProcessClassifier (constant length_scale : R)
| RandomForestClassifier (max_depth n_estimators : nat)
| SVC (gamma C : R).
(** an estimator, with or without a StandardScaler before it *)
Record classifier := mkclassifier { cl_scaled : bool; cl_estimator : estimator }.

(** train_rate_learner.py:110-155 get_sklearn_classifier, without further
    arguments *)
Definition get_sklearn_classifier (learner_type : string) (weight_decay learning_rate : R) (epochs : nat)
  (standardize : bool) : res classifier :=
  model <-
    (if String.eqb learner_type "sklearn_mlp" then Ok (MLPClassifier weight_decay epochs learning_rate)
     else if String.eqb learner_type "knn" then Ok (KNeighborsClassifier 25)
     else if String.eqb learner_type "gp" then Ok (GaussianProcessClassifier 1 1)
     else if String.eqb learner_type "random_forest" then Ok (RandomForestClassifier 5 10)
     else if String.eqb learner_type "svm" then Ok (SVC 2 1)
     else Raise ValueError) ;;
  Ok (mkclassifier standardize model).

(** train_rate_learner.py:61-91 Args: those the training of classifiers uses *)
Record sk_args := mkskargs {
  sk_type : string;
  sk_weight_decay : R;
  sk_learning_rate : R;
  sk_epochs : nat;
  sk_log_metrics : bool
}.

(** f'{i}'. Used at train_rate_learner.py:776-797. *)
Definition decimal (i : nat) : string := NilZero.string_of_uint (Nat.to_uint i).

Section Classifiers.
(** trained classifiers; fit, score and predict_proba of scikit-learn *)
Context {M : Type}.
Variable fit : classifier -> list (list R) -> list Z -> res M.
Variable score : M -> list (list R) -> list Z -> res R.
Variable predict_proba : M -> list (list R) -> res (list (list R)).

(** what the files contain. Used at train_rate_learner.py:776-797. *)
Inductive content :=
| ModelFile (m : M)
| EnsembleFile (l : list (string * M))
| MetricsFile (train_accuracy test_accuracy : list R)
| PlotFile (best : list (pt * R)).

(** train_rate_learner.py:158-181 train_sklearn_classifier: the classifier, its
    accuracy on the training data and on the test data *)
Definition train_sklearn_classifier (model : classifier) (training testing : list example) : res (M * R * R) :=
  m <- fit model (map e_context training) (map e_next_state training) ;;
  test_accuracy <- score m (map e_context testing) (map e_next_state testing) ;;
  train_accuracy <- score m (map e_context training) (map e_next_state training) ;;
  Ok (m, train_accuracy, test_accuracy).

(** train_rate_learner.py:776-797: the loop over the models; the files written,
    and the models with their accuracies *)
Fixpoint train_all (a : sk_args) (i : nat) (sets : list (list example * list example))
  : list (string * content) * res (list (M * R * R)) :=
  match sets with
  | [] => ([], Ok [])
  | (training, testing) :: sets =>
      match (model <- get_sklearn_classifier (sk_type a) (sk_weight_decay a) (sk_learning_rate a) (sk_epochs a) true ;;
             train_sklearn_classifier model training testing) with
      | Ok r =>
          let '(files, rest) := train_all a (S i) sets in
          ((sk_type a ++ "_" ++ decimal i ++ ".joblib", ModelFile (fst (fst r)))%string :: files, rs <- rest ;; Ok (r :: rs))
      | Raise e => ([], Raise e)
      | OutOfFuel => ([], OutOfFuel)
      end
  end.

(** train_rate_learner.py:799-818: the ensemble and the metrics, after the models *)
Definition train_classifiers (a : sk_args) (sets : list (list example * list example))
  : list (string * content) * res (list M) :=
  let '(files, r) := train_all a 0 sets in
  match r with
  | Ok rs =>
      let models := map (fun r => fst (fst r)) rs in
      let named := combine (map (fun i => sk_type a ++ "_" ++ decimal i)%string (seq 0 (length models))) models in
      (files ++ [(sk_type a ++ "_ensemble.joblib", EnsembleFile named)%string] ++
       (if sk_log_metrics a then [("metrics.npz", MetricsFile (map (fun r => snd (fst r)) rs) (map snd rs))] else []), Ok models)
  | Raise e => (files, Raise e)
  | OutOfFuel => (files, OutOfFuel)
  end.

(** predict_proba of a VotingClassifier with soft voting: the mean over the
    models, which need to have equal shapes *)
Definition voting_proba (models : list M) (x : list (list R)) : res (list (list R)) :=
  probas <- map_res (fun m => predict_proba m x) models ;;
  if same_lengths (map (fun p => hd [] p) probas) then Ok (mean_rows probas) else Raise ValueError.
(** train_rate_learner.py:820: without the column of staying *)
Definition voting_rates (models : list M) (x : list (list R)) : res (list (list R)) :=
  p <- voting_proba models x ;; Ok (map (@tl R) p).

(** * Plots of the trained models *)

(** np.min, np.max and np.median of the columns. Used at train_rate_learner.py:822-850. *)
Definition width_of (rows : list (list R)) : nat := match rows with [] => 0%nat | r :: _ => length r end.
(** used at train_rate_learner.py:822-850 *)
Definition median (l : list R) : R :=
  let s := rsort l in
  let n := length l in
  (nth ((n - 1) / 2) s 0 + nth (n / 2) s 0) / 2.
(** used at train_rate_learner.py:822-850 *)
Definition min_of (l : list R) : R := match l with [] => 0 | x :: l => fold_left Rmin l x end.
(** used at train_rate_learner.py:822-850 *)
Definition max_of (l : list R) : R := match l with [] => 0 | x :: l => fold_left Rmax l x end.
(** used at train_rate_learner.py:822-850 *)
Definition by_column (f : list R -> R) (rows : list (list R)) : list R :=
  map (fun i => f (column i rows)) (seq 0 (width_of rows)).

(** train_rate_learner.py:829-850: 300 points on each side *)
Definition plot_side : nat := 300.
Definition plot_file (predict : list (list R) -> res (list (list R))) (name : string) (context : option (list R))
  : list (string * content) * res unit :=
  match visualize_rates predict 10 (plot_side * plot_side) context with
  | Ok best => ([(name, PlotFile best)], Ok tt)
  | Raise e => ([], Raise e)
  | OutOfFuel => ([], OutOfFuel)
  end.
Fixpoint plot_files (predict : list (list R) -> res (list (list R))) (l : list (string * option (list R)))
  : list (string * content) * res unit :=
  match l with
  | [] => ([], Ok tt)
  | (name, context) :: l =>
      match plot_file predict name context with
      | (files, Ok _) => let '(rest, r) := plot_files predict l in (files ++ rest, r)
      | (files, r) => (files, r)
      end
  end.
(** train_rate_learner.py:822-850 *)
Definition plot_rates (predict : list (list R) -> res (list (list R))) (contexts : option (list (list R)))
  : list (string * content) * res unit :=
  let of f := option_map (by_column f) contexts in
  plot_files predict [("max_context_rates.png", of max_of); ("min_context_rates.png", of min_of);
                      ("avg_context_rates.png", of median)].

(** the contexts of the data; np.stack gave an array or there is no context.
    Used at train_rate_learner.py:762-850. *)
Fixpoint all_contexts (l : list datapoint) : option (list (list R)) :=
  match l with
  | [] => Some []
  | d :: l => match d_context d, all_contexts l with Some c, Some cs => Some (c :: cs) | _, _ => None end
  end.

(** train_rate_learner.py:762-850: main for a classifier, given the stacked data *)
Definition classifier_main {K} (split : K -> nat -> list K) (dr : draws K) (a : sk_args) (stacked : list datapoint) (num_models : nat) (rng_key : K)
  (bootstrap augment : bool) (val_frac : R) (visualize : bool) : list (string * content) * res unit :=
  match create_dataset_splits K split dr stacked num_models rng_key bootstrap augment val_frac with
  | Raise e => ([], Raise e)
  | OutOfFuel => ([], OutOfFuel)
  | Ok (trains, tests) =>
      match train_classifiers a (combine trains tests) with
      | (files, Ok models) =>
          if visualize then
            let '(plots, r) := plot_rates (voting_rates models) (all_contexts stacked) in (files ++ plots, r)
          else (files, Ok tt)
      | (files, Raise e) => (files, Raise e)
      | (files, OutOfFuel) => (files, OutOfFuel)
      end
  end.
End Classifiers.
Arguments content : clear implicits.

(** * Networks *)
Section Networks.
Variables P ST OS K : Type.
Variable split : K -> nat -> list K.
Variable optimize : (P -> res R) -> P -> OS -> res (P * OS).
Variable permutation : K -> nat -> list nat.
Variable ly : layers P ST K.
Variable apply_fn : apply_type P ST K.
Variable opt_init : P -> OS.
Variable normals : K -> nat -> nat -> list (list R).

(** train_rate_learner.py:707-760: main for a network, up to the plots of the
    rates: the directory and the predictor.  Distillation takes 10000 epochs of
    10 batches of 4096.  The plots of the metrics are left out;
    np.median of no context raises AxisError, a ValueError. *)
Definition network_main (dr : draws K) (cf : config) (stacked augmented : list datapoint) (rng_key : K) (bootstrap do_distill : bool)
  (dir : saved P ST K) : res (predictor P ST K) * saved P ST K :=
  match new_predictor P ST K split ly (key_at K split rng_key 2 0) 2 cf with
  | Raise e => (Raise e, dir)
  | OutOfFuel => (OutOfFuel, dir)
  | Ok p =>
      match train P ST OS K split optimize permutation ly apply_fn opt_init dr p stacked (key_at K split rng_key 2 1) bootstrap with
      | Raise e => (Raise e, dir)
      | OutOfFuel => (OutOfFuel, dir)
      | Ok (p, _) =>
          match (if do_distill then
                   distill P ST OS K split optimize ly apply_fn opt_init normals p augmented (4 * 1024) (100 * 100) 10
                 else Ok (p, [])) with
          | Raise e => (Raise e, dir)
          | OutOfFuel => (OutOfFuel, dir)
          | Ok (p, _) =>
              match all_contexts stacked with
              | None => (Raise ValueError, dir)
              | Some rows =>
                  let '(r, dir, p) := save P ST K apply_fn p dir 0 (Some (by_column median rows)) in
                  (_ <- r ;; Ok p, dir)
              end
          end
      end
  end.
End Networks.
