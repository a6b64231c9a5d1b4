(** Edges of C93, of the runs that train classifiers, and the default image
    duration. *)
From Coq Require Import String Reals ZArith List Bool Arith Lia Lra.
From Verif Require Import Base.Prelude Base.Rounding Model.MicroscopeUtils Model.Simulator Model.DataUtils Model.LearnRates Model.RateTraining
  Spec.RateTraining Props.RateTrainingProps.
Import ListNotations.
Open Scope list_scope.

Lemma iter_swap : forall {A} (f : A -> A) n x, Nat.iter n f (f x) = f (Nat.iter n f x).
Proof. intros A f n x. induction n as [|n IH]; [reflexivity|]. cbn [Nat.iter nat_rect]. exact (f_equal f IH). Qed.
Lemma last_any : forall {A} (l : list A) d d', l <> [] -> last l d = last l d'.
Proof.
  intros A l d d'. induction l as [|x l IH]; intros N; [contradiction|]. destruct l as [|y l]; [reflexivity|].
  exact (IH ltac:(discriminate)).
Qed.

(** Distilling draws from the first of two keys split off the predictor's own;
    after each epoch the last key of its batches goes on, and the predictor
    keeps the one after the last epoch. *)
Theorem distill_key : forall {P ST OS K} (split : K -> nat -> list K) optimize ly f opt_init normals
    p data batch_size epochs batches p' losses,
  distill P ST OS K split optimize ly f opt_init normals p data batch_size epochs batches = Ok (p', losses) ->
  p_rng _ _ _ p' = Nat.iter epochs (fun k => last (split k batches) k) (hd (p_rng _ _ _ p) (split (p_rng _ _ _ p) 2%nat)).
Proof.
  intros P ST OS K split optimize ly f opt_init normals p data batch_size epochs batches p' losses H. unfold distill in H.
  destruct (map_res to_example data) as [ex|e|]; cbn [bind] in H; try discriminate.
  match type of H with context [distill_multiple_models_to_single _ _ _ _ _ _ _ _ _ _ _ _ _ _ _ _ ?m ?sc] => set (dm := m) in H; set (dsc := sc) in H end.
  unfold distill_multiple_models_to_single in H. destruct (ly_init _ _ _ ly _ (length dm)) as [q0 s0].
  set (s1 := mktrain_state _ _ _ q0 s0 (opt_init q0)) in H.
  replace (hd (p_rng _ _ _ p) (split (p_rng _ _ _ p) 2%nat)) with (key_at K split (p_rng _ _ _ p) 2%nat 0%nat)
    by (unfold key_at; destruct (split (p_rng _ _ _ p) 2%nat); reflexivity).
  generalize dependent (key_at K split (p_rng P ST K p) 2%nat 0%nat). intros k1 H.
  destruct (distill_loop P ST OS K split optimize f normals _ _ batches batch_size dm dsc epochs s1 k1) as [[[s rng] ls]|e|] eqn:El;
    cbn [bind] in H; try discriminate.
  injection H as <- <-. cbn [p_rng].
  clearbody s1. revert s1 k1 s rng ls El. induction epochs as [|epochs IH]; intros s1 k1 s rng ls El; cbn [distill_loop] in El.
  { injection El as _ <- _. reflexivity. }
  destruct (distill_train_epoch P ST OS K split optimize f normals _ _ batches batch_size dm dsc s1 k1) as [[[s2 k2] l2]|e|] eqn:E2;
    cbn [bind] in El; try discriminate.
  destruct (distill_loop P ST OS K split optimize f normals _ _ batches batch_size dm dsc epochs s2 k2) as [[[s3 k3] l3]|e|] eqn:E3;
    cbn [bind] in El; try discriminate.
  injection El as _ <- _. rewrite (IH _ _ _ _ _ E3).
  assert (Ek : k2 = last (split k1 batches) k1).
  { unfold distill_train_epoch in E2. destruct (scan_out _ s1 (split k1 batches)) as [[s4 l4]|e|]; cbn [bind] in E2; try discriminate.
    destruct (split k1 batches) as [|k ks]; [discriminate|]. injection E2 as _ <- _.
    exact (last_any (k :: ks) k k1 ltac:(discriminate)). }
  rewrite Ek. exact (iter_swap (fun k => last (split k batches) k) epochs k1).
Qed.
Print Assumptions distill_key.

(** A run whose (i+1)-th classifier cannot be trained raises that error; the
    classifiers trained before are written, nothing else is. *)
Theorem classifier_run_stops : forall {M K} fit score predict_proba (split : K -> nat -> list K) (dr : draws K)
    a c stacked n key bootstrap augment fraction visualize trains tests before training testing after (rs : list (M * R * R)) e,
  create_dataset_splits K split dr stacked n key bootstrap augment fraction = Ok (trains, tests) ->
  combine trains tests = before ++ (training, testing) :: after ->
  get_sklearn_classifier (sk_type a) (sk_weight_decay a) (sk_learning_rate a) (sk_epochs a) true = Ok c ->
  Forall2 (fun s r => trained_on fit score c (fst s) (snd s) r) before rs ->
  train_sklearn_classifier fit score c training testing = Raise e ->
  classifier_main fit score predict_proba split dr a stacked n key bootstrap augment fraction visualize = (model_files a 0 rs, Raise e).
Proof.
  intros M K fit score predict_proba split dr a c stacked n key bootstrap augment fraction visualize trains tests before training testing
    after rs e Es Ec Eg F Et.
  unfold classifier_main. rewrite Es, Ec. rewrite (classifiers_stop fit score a c before training testing after rs e Eg F Et). reflexivity.
Qed.
Print Assumptions classifier_run_stops.

(** By default an image takes two seconds, as in the registered experiments. *)
Theorem default_image_seconds : total_seconds default_image_duration = 2%R.
Proof. unfold total_seconds, default_image_duration. lra. Qed.
Print Assumptions default_image_seconds.

(** Two sets of data; the classifier of the second cannot be trained. *)
Definition ex_fit (c : classifier) (x : list (list R)) (y : list Z) : res nat :=
  match x with [] => Raise ValueError | _ => Ok (length x) end.
Example classifier_run_stops_nonvacuous :
  exists training testing r,
    train_sklearn_classifier ex_fit (fun _ _ _ => Ok 1%R) (mkclassifier true (KNeighborsClassifier 25)) [] testing = Raise ValueError /\
    trained_on ex_fit (fun _ _ _ => Ok 1%R) (mkclassifier true (KNeighborsClassifier 25)) training testing r /\ training <> [].
Proof.
  exists [mkexample 1%Z 1%R [1%R]], [], (1%nat, 1%R, 1%R). repeat split; try reflexivity. discriminate.
Qed.
