(** What is expected of the classifiers of scikit-learn, of networks with a
    fixed number of inputs, and of the training of rate learners. *)
From Coq Require Import Reals String ZArith List Bool Permutation Sorted.
From Verif Require Import Base.Prelude Model.DataUtils Model.LearnRates Model.RateTraining Spec.RatePlots.
Import ListNotations.
Local Open Scope R_scope.

(** the names under which estimators can be asked for *)
Definition estimator_for (name : string) (weight_decay learning_rate : R) (epochs : nat) (e : estimator) : Prop :=
  (name = "sklearn_mlp"%string /\ e = MLPClassifier weight_decay epochs learning_rate) \/
  (name = "knn"%string /\ e = KNeighborsClassifier 25) \/
  (name = "gp"%string /\ e = GaussianProcessClassifier 1 1) \/
  (name = "random_forest"%string /\ e = RandomForestClassifier 5 10) \/
  (name = "svm"%string /\ e = SVC 2 1).

(** the different labels, in order *)
Definition classes (ys l : list Z) : Prop := StronglySorted Z.lt l /\ forall y, In y l <-> In y ys.

(** scikit-learn: an MLPClassifier takes the name of a schedule, not a number, as
    its learning_rate; an SVC made without probability=True has no predict_proba; the others
    give a probability for each label they were trained on *)
Record sklearn {M} (fit : classifier -> list (list R) -> list Z -> res M)
  (predict_proba : M -> list (list R) -> res (list (list R))) : Prop := {
  sk_mlp : forall scaled alpha n rate xs ys, fit (mkclassifier scaled (MLPClassifier alpha n rate)) xs ys = Raise ValueError;
  sk_svc : forall scaled gamma C xs ys m rows, fit (mkclassifier scaled (SVC gamma C)) xs ys = Ok m ->
    predict_proba m rows = Raise AttributeError;
  sk_proba : forall c xs ys m, fit c xs ys = Ok m -> (forall gamma C, cl_estimator c <> SVC gamma C) ->
    exists chance l, classes ys l /\ forall rows, predict_proba m rows = Ok (map (fun row => map (chance row) l) rows)
}.
(** the probability that a model gives a label *)
Definition chances {M} (predict_proba : M -> list (list R) -> res (list (list R))) (m : M) (chance : list R -> Z -> R) : Prop :=
  forall rows, predict_proba m rows = Ok (map (fun row => [chance row 0%Z; chance row 1%Z; chance row 2%Z; chance row 3%Z]) rows).

(** a plot of the rates [f]: the greatest rate of each neighbour, and the first point reaching it *)
Definition shows (f : nat -> list R -> R) (range : R) (k : nat) (context : option (list R)) (best : list (pt * R)) : Prop :=
  length best = 3%nat /\ forall i p m, nth_error best i = Some (p, m) ->
    exists a b, (a < k)%nat /\ (b < k)%nat /\ p = square_point range k a b /\ m = f i (told context p) /\
      forall a' b', (a' < k)%nat -> (b' < k)%nat ->
        f i (told context (square_point range k a' b')) <= m /\
        ((b' < b \/ b' = b /\ a' < a)%nat -> f i (told context (square_point range k a' b')) < m).

(** the least, the greatest and the middle of some numbers *)
Definition least (l : list R) (m : R) : Prop := In m l /\ forall x, In x l -> m <= x.
Definition middle (l : list R) (m : R) : Prop :=
  exists s, Permutation l s /\ StronglySorted Rle s /\
    ((exists k, length l = (2 * k + 1)%nat /\ m = nth k s 0) \/
     (exists k, length l = (2 * k + 2)%nat /\ m = (nth k s 0 + nth (k + 1) s 0) / 2)).

(** networks have a number of inputs, which training does not change; rows of
    another length are an error *)
Record fixed_width {P ST OS K} (ly : layers P ST K) (f : apply_type P ST K) (optimize : (P -> res R) -> P -> OS -> res (P * OS))
  (width : P -> nat) : Prop := {
  fw_init : forall k d, width (fst (ly_init _ _ _ ly k d)) = d;
  fw_train : forall loss q o q' o', optimize loss q o = Ok (q', o') -> width q' = width q;
  fw_rejects : forall q s k x b row, In row x -> length row <> width q -> f q s k x b = Raise ValueError;
  fw_accepts : forall q s k row b, length row = width q -> exists r s', f q s k [row] b = Ok ([r], s')
}.
