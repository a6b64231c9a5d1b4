(** putting_dune/rate_learning/learn_rates.py *)
From Coq Require Import Reals ZArith List Bool Arith.
From Verif Require Import Base.Prelude Base.Rounding Model.Constants Model.Geometry Model.Graphene
  Model.MicroscopeUtils Model.Alignment Model.DataUtils.
Import ListNotations.
Open Scope R_scope.
Open Scope res_scope.

(** * Array functions *)

(** jax.nn.softplus. Used at learn_rates.py:80-99. *)
Definition softplus (x : R) : R := ln (1 + exp x).
(** jax.nn.softmax of one row.  Simplification: without the subtraction of the
    maximum, which changes nothing but rounding. Used at learn_rates.py:730-732. *)
Definition softmax (l : list R) : list R := map (fun x => exp x / rsum (map exp l)) l.
(** jax.nn.log_softmax of one row. Used at learn_rates.py:146-150. *)
Definition log_softmax (l : list R) : list R := map (fun x => x - ln (rsum (map exp l))) l.
(** jnp.mean; of nothing, a junk value (nan in Python). Used at learn_rates.py:102-164. *)
Definition mean (l : list R) : R := rsum l / INR (length l).
(** rates[-1] and rates[:-1]. Used at learn_rates.py:730-732. *)
Definition total_of (rates : list R) : R := last rates 0.
(** used at learn_rates.py:730-732 *)
Definition choices_of (rates : list R) : list R := removelast rates.

(** learn_rates.py:730-732, also 377 and 387-389: from directions and a total
    rate to rates per neighbour *)
Definition per_neighbor (rates : list R) : list R := map (fun w => total_of rates * w) (softmax (choices_of rates)).

(** * The network *)
Section Learn.
(** parameters, state (batch normalisation), optimizer state, random keys *)
Variables P ST OS K : Type.
(** jax.random.split *)
Variable split : K -> nat -> list K.
(** a batch of inputs, one row per example *)
Notation rows := (list (list R)).

(** hk.BatchNorm and hk.nets.MLP: external.  The MLP raises where its input
    does not have the dimension of its parameters. Used at learn_rates.py:80-99. *)
Record layers := mklayers {
  ly_normalize : P -> ST -> rows -> bool -> rows * ST;
  ly_mlp : P -> R -> K -> rows -> res rows;
  ly_init : K -> nat -> P * ST
}.

(** learn_rates.py:80-99 get_mlp_fn: call_mlp *)
Definition call_mlp (ly : layers) (batchnorm : bool) (dropout_rate : R) (params : P) (state : ST) (key : K) (x : rows)
  (is_training : bool) : res (rows * ST) :=
  let '(x, state) := if batchnorm then ly_normalize ly params state x is_training else (x, state) in
  let dropout := if is_training then dropout_rate else 0 in
  out <- ly_mlp ly params dropout key x ;;
  Ok (map (map softplus) out, state).

Definition apply_type := P -> ST -> K -> rows -> bool -> res (rows * ST).

(** * The loss *)

(** one row of a training dataset. Used at learn_rates.py:102-164. *)
Record example := mkexample { e_next_state : Z; e_dt : R; e_context : list R }.

(** learn_rates.py:136-144: of one row; [did] is 1 or 0 *)
Definition total_rate_loss (rates : list R) (elapsed_time : R) (did : bool) : R :=
  let predicted_total_rate := total_of rates in
  let no_transition_prob := exp (- predicted_total_rate * elapsed_time) in
  let no_transition_prob := Rmin no_transition_prob (1 - 1 / 1000000) in
  let did_transition_logprob := ln (1 - no_transition_prob) in
  let no_transition_logprob := - predicted_total_rate * elapsed_time in
  let d := if did then 1 else 0 in
  - (d * did_transition_logprob + (1 - d) * no_transition_logprob).
(** learn_rates.py:146-150 *)
Definition next_state_loss (rates : list R) (next_state : Z) (did : bool) : R :=
  - (jnp_index (log_softmax (choices_of rates)) (next_state - 1) 0 * (if did then 1 else 0)).
(** learn_rates.py:151-160: the second output, from predicted_rates[:, -1:] *)
Definition returned_rates (rates : list R) : list R :=
  map (fun w => w * total_of rates) (softmax [total_of rates]).

Record loss_result := mkloss_result {
  lr_loss : R;
  lr_state : ST;
  lr_rates : rows;
  lr_rate_losses : list R;
  lr_class_losses : list R
}.
(** learn_rates.py:102-164 batched_loss_fn; [did_transition] is next_state != 0
    at all call sites (217, 293, 304) *)
Definition did_transition (e : example) : bool := negb (Z.eqb (e_next_state e) 0).
Definition batched_loss_fn (apply_fn : apply_type) (params : P) (state : ST) (batch : list example) (key : K)
  (is_training : bool) (class_loss_weight rate_loss_weight : R) : res loss_result :=
  out <- apply_fn params state key (map e_context batch) is_training ;;
  let '(predicted, state) := out in
  let rl := map (fun pe => total_rate_loss (fst pe) (e_dt (snd pe)) (did_transition (snd pe))) (combine predicted batch) in
  let cl := map (fun pe => next_state_loss (fst pe) (e_next_state (snd pe)) (did_transition (snd pe))) (combine predicted batch) in
  let losses := map (fun cr => fst cr * class_loss_weight + snd cr * rate_loss_weight) (combine cl rl) in
  Ok (mkloss_result (mean losses) state (map returned_rates predicted) rl cl).

(** * Training *)

(** jax.value_and_grad with optim.update and optax.apply_updates: external.
    Given the loss as a function of the parameters, new parameters and a new
    optimizer state. *)
Variable optimize : (P -> res R) -> P -> OS -> res (P * OS).

(** learn_rates.py:199-202: the batches, of which the last, incomplete one is dropped *)
Definition batch_indices (indices : list nat) (batch_size : nat) : list (list nat) :=
  map (fun i => firstn batch_size (skipn (i * batch_size) indices)) (seq 0 (length indices / batch_size)).

Record train_state := mktrain_state { ts_params : P; ts_state : ST; ts_opt : OS }.

(** learn_rates.py:206-227 train_step.  The state after the step is the one of
    the forward pass. *)
Definition train_step (apply_fn : apply_type) (key : K) (cw rw : R) (s : train_state) (batch : list example) : res train_state :=
  r <- batched_loss_fn apply_fn (ts_params s) (ts_state s) batch key true cw rw ;;
  po <- optimize (fun p => fmap_res lr_loss (batched_loss_fn apply_fn p (ts_state s) batch key true cw rw))
                 (ts_params s) (ts_opt s) ;;
  Ok (mktrain_state (fst po) (lr_state r) (snd po)).

(** jax.lax.scan without outputs. Used at learn_rates.py:167-233. *)
Fixpoint scan_res {A B} (f : A -> B -> res A) (a : A) (l : list B) : res A :=
  match l with
  | [] => Ok a
  | x :: l => a <- f a x ;; scan_res f a l
  end.

(** jax.random.permutation of arange(n) *)
Variable permutation : K -> nat -> list nat.
(** the keys of a split: Simplification: a missing key is the key itself.
    Used at learn_rates.py:167-233. *)
Definition key_at (key : K) (n i : nat) : K := nth i (split key n) key.

(** learn_rates.py:167-233 train_epoch; len // 0 raises ZeroDivisionError, and
    stacking no batches ValueError *)
Definition train_epoch (apply_fn : apply_type) (batch_size : nat) (cw rw : R) (s : train_state) (key0 : K)
  (train_data : list example) : res (train_state * K) :=
  let key := key_at key0 2 0 in
  let data_key := key_at key0 2 1 in
  let indices := permutation data_key (length train_data) in
  match batch_size with
  | O => Raise ZeroDivisionError
  | _ =>
      match batch_indices indices batch_size with
      | [] => Raise ValueError
      | inds =>
          batches <- map_res (rows_at train_data) inds ;;
          s <- scan_res (train_step apply_fn key cw rw) s batches ;;
          Ok (s, key)
      end
  end.

Record metrics := mkmetrics {
  m_train_loss : R; m_test_loss : R;
  m_train_rate_loss : R; m_train_class_loss : R;
  m_test_rate_loss : R; m_test_class_loss : R
}.

(** learn_rates.py:273-321 do_epoch; the losses are evaluated with the default
    weights *)
Definition do_epoch (apply_fn : apply_type) (batch_size : nat) (cw rw : R) (train_data test_data : list example)
  (s : train_state) (key : K) : res (train_state * metrics) :=
  sk <- train_epoch apply_fn batch_size cw rw s key train_data ;;
  let '(s, key) := sk in
  te <- batched_loss_fn apply_fn (ts_params s) (ts_state s) test_data key false 1 1 ;;
  tr <- batched_loss_fn apply_fn (ts_params s) (ts_state s) train_data key false 1 1 ;;
  Ok (s, mkmetrics (lr_loss tr) (lr_loss te) (mean (lr_rate_losses tr)) (mean (lr_class_losses tr))
           (mean (lr_rate_losses te)) (mean (lr_class_losses te))).
(** learn_rates.py:236-329 train_model *)
Fixpoint epochs_loop (apply_fn : apply_type) (batch_size : nat) (cw rw : R) (train_data test_data : list example)
  (s : train_state) (keys : list K) : res (train_state * list metrics) :=
  match keys with
  | [] => Ok (s, [])
  | key :: keys =>
      sm <- do_epoch apply_fn batch_size cw rw train_data test_data s key ;;
      rest <- epochs_loop apply_fn batch_size cw rw train_data test_data (fst sm) keys ;;
      Ok (fst rest, snd sm :: snd rest)
  end.
Definition train_model (apply_fn : apply_type) (batch_size epochs : nat) (cw rw : R) (train_data test_data : list example)
  (key : K) (s : train_state) : res (train_state * list metrics) :=
  epochs_loop apply_fn batch_size cw rw train_data test_data s (split key epochs).

(** * Splits *)

(** how one split is drawn from the data *)
Record draws := mkdraws {
  dr_bootstrap : K -> nat -> list nat;          (* with replacement *)
  dr_choice : K -> nat -> list nat;             (* without *)
  dr_set_order : list nat -> list nat
}.
(** learn_rates.py:590-598: the position is appended to the context *)
Definition to_example (d : datapoint) : res example :=
  match d_context d with
  | Some c => Ok (mkexample (d_state d) (d_time d) (c ++ [px (d_position d); py (d_position d)]))
  | None => Raise AttributeError
  end.
Definition min_length {A} (l : list (list A)) : res nat :=
  match map (@length A) l with
  | [] => Raise ValueError
  | n :: ns => Ok (fold_right Nat.min n ns)
  end.
(** jnp.stack needs equal shapes *)
Definition same_lengths {A} (l : list (list A)) : bool :=
  match l with [] => true | x :: l => forallb (fun y => (length y =? length x)%nat) l end.
(** learn_rates.py:530-600 create_dataset_splits.  A missing context cannot be
    indexed (TypeError), and has no shape (AttributeError).
    Simplification: the rates, which the loss does not use, are dropped. *)
Definition create_dataset_splits (dr : draws) (train_data : list datapoint) (num_splits : nat) (key : K)
  (bootstrap augment : bool) (test_fraction : R) : res (list (list example) * list (list example)) :=
  let data_keys := split key num_splits in
  let n := length train_data in
  let no_context := existsb (fun d => match d_context d with None => true | Some _ => false end) train_data in
  datasets <-
    (if bootstrap then
       if no_context then (match num_splits with O => Ok [] | _ => Raise TypeError end)
       else map_res (fun k => bootstrap_dataset (dr_bootstrap dr k n) (dr_set_order dr) train_data) data_keys
     else if Rltb test_fraction 1 && Rltb 0 test_fraction then
       if no_context then (match num_splits with O => Ok [] | _ => Raise TypeError end)
       else map_res (fun k => split_dataset (dr_choice dr k n) test_fraction train_data) data_keys
     else if Reqb test_fraction 0 then Ok (repeat (train_data, train_data) num_splits)
     else Raise AssertionError) ;;
  trains <- (if augment then map_res (augment_data true 3) (map fst datasets) else Ok (map fst datasets)) ;;
  tests <- (if augment then map_res (augment_data true 3) (map snd datasets) else Ok (map snd datasets)) ;;
  trains <- map_res (map_res to_example) trains ;;
  tests <- map_res (map_res to_example) tests ;;
  test_set_len <- min_length tests ;;
  let tests := map (firstn test_set_len) tests in
  if same_lengths trains && same_lengths tests then Ok (trains, tests) else Raise ValueError.

(** * The predictor *)

(** what is used of the configuration. Used at learn_rates.py:659-702. *)
Record config := mkconfig {
  cf_num_models : nat;
  cf_use_current : bool;
  cf_use_voltage : bool;
  cf_batch_size : nat;
  cf_epochs : nat;
  cf_class_weight : R;
  cf_rate_weight : R;
  cf_augment : bool;
  cf_val_frac : R
}.

(** a packaged model is traced when it is first called or saved, and keeps the
    parameters, state and key of that moment. Used at learn_rates.py:884-923. *)
Record package := mkpackage {
  pk_fixed : option (list R);
  pk_input : nat;                         (* the declared input dimension *)
  pk_traced : option (list P * list ST * K)
}.
(** used at learn_rates.py:659-702 *)
Record predictor := mkpredictor {
  p_params : list P;                      (* one per model *)
  p_states : list ST;
  p_rng : K;
  p_num_models : nat;
  p_context_dim : nat;
  p_config : config;
  p_packaged : option package
}.

Variable ly : layers.
Variable apply_fn : apply_type.

Definition nat_of_bool (b : bool) : nat := if b then 1%nat else 0%nat.
(** learn_rates.py:659-702 __init__; a missing init_key is PRNGKey(0).
    Stacking no models raises TypeError (tree_map without trees). *)
Definition new_predictor (init_key : K) (position_dim : nat) (cf : config) : res predictor :=
  let context_dim := (position_dim + nat_of_bool (cf_use_current cf) + nat_of_bool (cf_use_voltage cf))%nat in
  match split init_key (cf_num_models cf + 1) with
  | [] | [_] => Raise TypeError
  | rng :: keys =>
      let nets := map (fun k => ly_init ly k context_dim) keys in
      Ok (mkpredictor (map fst nets) (map snd nets) rng (cf_num_models cf) context_dim cf None)
  end.

(** learn_rates.py:689-692 batch_call: every model on the same inputs *)
Definition batch_apply (params : list P) (states : list ST) (x : rows) (key : K) (is_training : bool) : res (list rows) :=
  map_res (fun ps => fmap_res fst (apply_fn (fst ps) (snd ps) key x is_training)) (combine params states).

(** the mean over the models, entry by entry; all models give the same shape.
    Used at learn_rates.py:704-732. *)
Definition add_rows (a b : rows) : rows := map (fun ab => map (fun xy => fst xy + snd xy) (combine (fst ab) (snd ab))) (combine a b).
(** used at learn_rates.py:704-732 *)
Definition mean_rows (l : list rows) : rows :=
  match l with
  | [] => []
  | r :: rs => map (map (fun x => x / INR (length l))) (fold_left add_rows rs r)
  end.

(** learn_rates.py:704-732 apply_model: the rates per neighbour, and the predictor
    with its next key *)
Definition apply_model (p : predictor) (x : rows) (key : option K) (model_index : option Z) : res rows * predictor :=
  let '(key, p) := match key with
    | Some k => (k, p)
    | None => (key_at (p_rng p) 2 0,
               mkpredictor (p_params p) (p_states p) (key_at (p_rng p) 2 1) (p_num_models p) (p_context_dim p) (p_config p) (p_packaged p))
    end in
  let outputs :=
    match model_index with
    | None => batch_apply (p_params p) (p_states p) x key false
    | Some i =>
        match p_params p, p_states p with
        | p0 :: _, s0 :: _ =>
            fmap_res (fun r => [fst r]) (apply_fn (jnp_index (p_params p) i p0) (jnp_index (p_states p) i s0) key x false)
        | _, _ => Raise TypeError
        end
    end in
  (fmap_res (fun rates => mean_rows (map (map per_neighbor) rates)) outputs, p).

(** learn_rates.py:603-653 train_multiple_models: the i-th model on the i-th dataset,
    from freshly initialised parameters.  optim.init is external. *)
Variable opt_init : P -> OS.
Fixpoint zip3_res {A B C D} (f : A -> B -> C -> res D) (a : list A) (b : list B) (c : list C) : res (list D) :=
  match a, b, c with
  | x :: a, y :: b, z :: c => d <- f x y z ;; ds <- zip3_res f a b c ;; Ok (d :: ds)
  | _, _, _ => Ok []
  end.
Definition train_multiple_models (cf : config) (train_datasets test_datasets : list (list example)) (key : K) (num_models : nat)
  : res (list (train_state * list metrics)) :=
  if negb (length train_datasets =? num_models)%nat then Raise AssertionError
  else if negb (length test_datasets =? num_models)%nat then Raise AssertionError
  else
    let train_key := key_at key 2 0 in
    let init_key := key_at key 2 1 in
    let train_keys := split train_key num_models in
    match train_datasets with
    | (e :: _) :: _ =>
        let dim := length (e_context e) in
        let nets := map (fun k => ly_init ly k dim) (split init_key num_models) in
        zip3_res (fun data kn test =>
            train_model apply_fn (cf_batch_size cf) (cf_epochs cf) (cf_class_weight cf) (cf_rate_weight cf) data test (fst kn)
              (mktrain_state (fst (snd kn)) (snd (snd kn)) (opt_init (fst (snd kn)))))
          train_datasets (combine train_keys nets) test_datasets
    | _ => Raise IndexError
    end.

(** learn_rates.py:734-776 train *)
Definition train (dr : draws) (p : predictor) (train_data : list datapoint) (key : K) (bootstrap : bool)
  : res (predictor * list (list metrics)) :=
  let cf := p_config p in
  let rng := key_at key 3 0 in
  sets <- create_dataset_splits dr train_data (p_num_models p) (key_at key 3 1) bootstrap (cf_augment cf) (cf_val_frac cf) ;;
  models <- train_multiple_models cf (fst sets) (snd sets) (key_at key 3 2) (p_num_models p) ;;
  Ok (mkpredictor (map (fun m => ts_params (fst m)) models) (map (fun m => ts_state (fst m)) models) rng (p_num_models p)
        (p_context_dim p) cf (p_packaged p), map snd models).

(** * Distillation *)

(** learn_rates.py:372-382: the targets, given the datapoints *)
Definition distill_targets (params : list P) (states : list ST) (datapoints : rows) (key : K) : res rows :=
  outputs <- batch_apply params states datapoints key false ;;
  Ok (mean_rows (map (map per_neighbor) outputs)).
(** learn_rates.py:391 *)
Definition squared_error (a b : list R) : R := rsum (map (fun xy => (fst xy - snd xy) * (fst xy - snd xy)) (combine a b)).
(** learn_rates.py:332-392 distill_loss, given the datapoints drawn *)
Definition distill_loss (params : P) (state : ST) (ensemble_params : list P) (ensemble_states : list ST) (datapoints : rows)
  (rng eval_key : K) : res (R * ST) :=
  targets <- distill_targets ensemble_params ensemble_states datapoints eval_key ;;
  out <- apply_fn params state rng datapoints true ;;
  let '(pred, state) := out in
  Ok (mean (map (fun pt => squared_error (per_neighbor (fst pt)) (snd pt)) (combine pred targets)), state).

(** jax.random.normal(key, (n, dim)) *)
Variable normals : K -> nat -> nat -> rows.
(** learn_rates.py:363-370: the random inputs *)
Definition synthetic (key : K) (batch_size : nat) (data_mean data_scale : list R) : rows :=
  map (fun z => map (fun zsm => fst zsm * fst (snd zsm) + snd (snd zsm)) (combine z (combine data_scale data_mean)))
      (normals key batch_size (length data_mean)).
(** learn_rates.py:440-463 distill_train_step: the loss is that before the step *)
Definition distill_train_step (ens_params : list P) (ens_states : list ST) (batch_size : nat) (data_mean data_scale : list R)
  (s : train_state) (key : K) : res (train_state * R) :=
  let data := synthetic (key_at key 3 1) batch_size data_mean data_scale in
  let loss := fun p => distill_loss p (ts_state s) ens_params ens_states data (key_at key 3 0) (key_at key 3 2) in
  l <- loss (ts_params s) ;;
  po <- optimize (fun p => fmap_res fst (loss p)) (ts_params s) (ts_opt s) ;;
  Ok (mktrain_state (fst po) (snd l) (snd po), fst l).
Fixpoint scan_out {A B C} (f : A -> B -> res (A * C)) (a : A) (l : list B) : res (A * list C) :=
  match l with
  | [] => Ok (a, [])
  | x :: l => ac <- f a x ;; rest <- scan_out f (fst ac) l ;; Ok (fst rest, snd ac :: snd rest)
  end.
(** learn_rates.py:395-470 distill_train_epoch; without batches there is no last key *)
Definition distill_train_epoch (ens_params : list P) (ens_states : list ST) (batches batch_size : nat) (data_mean data_scale : list R)
  (s : train_state) (key : K) : res (train_state * K * R) :=
  let keys := split key batches in
  r <- scan_out (distill_train_step ens_params ens_states batch_size data_mean data_scale) s keys ;;
  match keys with
  | [] => Raise IndexError
  | k :: _ => Ok (fst r, last keys k, mean (snd r))
  end.
(** learn_rates.py:473-527 distill_multiple_models_to_single: the loop *)
Fixpoint distill_loop (ens_params : list P) (ens_states : list ST) (batches batch_size : nat) (data_mean data_scale : list R)
  (epochs : nat) (s : train_state) (key : K) : res (train_state * K * list R) :=
  match epochs with
  | O => Ok (s, key, [])
  | S epochs =>
      r <- distill_train_epoch ens_params ens_states batches batch_size data_mean data_scale s key ;;
      let '(s, key, loss) := r in
      rest <- distill_loop ens_params ens_states batches batch_size data_mean data_scale epochs s key ;;
      let '(s, key, losses) := rest in
      Ok (s, key, loss :: losses)
  end.
Definition distill_multiple_models_to_single (key : K) (ens_params : list P) (ens_states : list ST) (batch_size epochs batches : nat)
  (data_mean data_scale : list R) : res (train_state * K * list R) :=
  let '(params, state) := ly_init ly (key_at key 2 1) (length data_mean) in
  distill_loop ens_params ens_states batches batch_size data_mean data_scale epochs
    (mktrain_state params state (opt_init params)) (key_at key 2 0).

(** learn_rates.py:798-804: the columns of the data, and jnp's std *)
Definition column (i : nat) (data : list (list R)) : list R := map (fun r => nth i r 0) data.
Definition std (l : list R) : R := sqrt (mean (map (fun x => (x - mean l) * (x - mean l)) l)).
(** learn_rates.py:778-825 distill.  Simplification: of no data, junk. *)
Definition distill (p : predictor) (train_data : list datapoint) (batch_size epochs batches : nat)
  : res (predictor * list R) :=
  ex <- map_res to_example train_data ;;
  let data := map e_context ex in
  let dim := match data with [] => 0%nat | r :: _ => length r end in
  let data_mean := map (fun i => mean (column i data)) (seq 0 dim) in
  let data_scale := map (fun i => std (column i data)) (seq 0 dim) in
  r <- distill_multiple_models_to_single (p_rng p) (p_params p) (p_states p) batch_size epochs batches data_mean data_scale ;;
  let '(s, rng, losses) := r in
  Ok (mkpredictor [ts_params s] [ts_state s] rng (p_num_models p) (p_context_dim p) (p_config p) (p_packaged p), losses).

(** * Packaging *)

Definition with_package (p : predictor) (pk : package) : predictor :=
  mkpredictor (p_params p) (p_states p) (p_rng p) (p_num_models p) (p_context_dim p) (p_config p) (Some pk).
(** learn_rates.py:884-923 package_model: the network is not run yet; a negative
    dimension raises ValueError *)
Definition package_model (p : predictor) (fixed_context : option (list R)) : res package :=
  match fixed_context with
  | None => Ok (mkpackage None (p_context_dim p) None)
  | Some c =>
      if (p_context_dim p <? length c)%nat then Raise ValueError
      else Ok (mkpackage fixed_context (p_context_dim p - length c) None)
  end.

(** learn_rates.py:895-903: what is traced; squeeze raises ValueError unless
    there is exactly one model *)
Definition run_traced (fixed_context : option (list R)) (t : list P * list ST * K) (context : rows) : res rows :=
  let '(params, states, rng) := t in
  let context := match fixed_context with
    | None => context
    | Some c => map (fun row => c ++ row) context
    end in
  outputs <- batch_apply params states context rng false ;;
  match outputs with [r] => Ok r | _ => Raise ValueError end.

(** a call of the packaged model: one row of the declared dimension (else
    ValueError); a first call traces. Used at learn_rates.py:925-972. *)
Definition call_package (p : predictor) (pk : package) (context : rows) : res rows * package :=
  let t := match pk_traced pk with Some t => t | None => (p_params p, p_states p, p_rng p) end in
  match context with
  | [row] =>
      if negb (length row =? pk_input pk)%nat then (Raise ValueError, pk)
      else
        match run_traced (pk_fixed pk) t context with
        | Ok r => (Ok r, mkpackage (pk_fixed pk) (pk_input pk) (Some t))
        | Raise e => (Raise e, pk)
        | OutOfFuel => (OutOfFuel, pk)
        end
  | _ => (Raise ValueError, pk)
  end.

(** learn_rates.py:925-972 predict: the rates in the order of the neighbours.
    np.concatenate of a number raises ValueError.  Simplification: the
    neighbour indices are in range. *)
Definition predict (asort : argsort_fn) (p : predictor) (positions : list pt) (beam_pos current_position : pt)
  (neighbor_indices : list nat) (voltage_kv current_na : R) : res (list R) * predictor :=
  let pk := match p_packaged p with Some pk => Ok pk | None => package_model p None end in
  match pk with
  | Raise e => (Raise e, p)
  | OutOfFuel => (OutOfFuel, p)
  | Ok pk =>
      let p := with_package p pk in
      match take_idx positions neighbor_indices with
      | None => (Raise IndexError, p)
      | Some nbs =>
          let nbs := map (fun q => psub q current_position) nbs in
          let beam := psub beam_pos current_position in
          let beam := mkpt (px beam / CARBON_BOND_DISTANCE_ANGSTROMS) (py beam / CARBON_BOND_DISTANCE_ANGSTROMS) in
          match standardize_beam_and_neighbors asort beam nbs with
          | Raise e => (Raise e, p)
          | OutOfFuel => (OutOfFuel, p)
          | Ok (new_beam, _, neighbor_order) =>
              if cf_use_voltage (p_config p) then (Raise ValueError, p)
              else if cf_use_current (p_config p) then (Raise ValueError, p)
              else
                let '(r, pk) := call_package p pk [[px new_beam; py new_beam]] in
                (out <- r ;;
                 match out with
                 | rates :: _ =>
                     match take_idx rates (asort (map INR neighbor_order)) with
                     | Some l => Ok l
                     | None => Raise IndexError
                     end
                 | [] => Raise IndexError
                 end, with_package p pk)
          end
      end
  end.

(** * Saving *)

(** what a directory holds *)
Record saved := mksaved {
  sv_params : nat -> option (list P);     (* by step *)
  sv_model : option (option (list R) * nat * (list P * list ST * K));
  sv_config : option config
}.
(** learn_rates.py:827-857 save.  The checkpoint is written before the
    packaged model is traced, on one row of the declared dimension; the
    configuration last.  Simplification: the trace uses zeros. *)
Definition save (p : predictor) (dir : saved) (step : nat) (fixed_context : option (list R)) : res unit * saved * predictor :=
  let dir := mksaved (fun s => if (s =? step)%nat then Some (p_params p) else sv_params dir s) (sv_model dir) (sv_config dir) in
  match package_model p fixed_context with
  | Raise e => (Raise e, dir, p)
  | OutOfFuel => (OutOfFuel, dir, p)
  | Ok pk =>
      let '(r, pk) := call_package p pk [repeat 0 (pk_input pk)] in
      let p := with_package p pk in
      match r with
      | Ok _ => (Ok tt, mksaved (sv_params dir) (Some (pk_fixed pk, pk_input pk, (p_params p, p_states p, p_rng p))) (Some (p_config p)), p)
      | Raise e => (Raise e, dir, p)
      | OutOfFuel => (OutOfFuel, dir, p)
      end
  end.

(** learn_rates.py:859-882 load: parameters, packaged model and configuration, in
    this order; each missing file ends the loading.  Simplification: the
    OSError of a missing saved model is its subclass FileNotFoundError. *)
Definition load (p : predictor) (dir : saved) (step : nat) (load_params load_config : bool) : res unit * predictor :=
  match (if load_params then sv_params dir step else Some (p_params p)) with
  | None => (Raise FileNotFoundError, p)
  | Some params =>
      let p := mkpredictor params (p_states p) (p_rng p) (p_num_models p) (p_context_dim p) (p_config p) (p_packaged p) in
      match sv_model dir with
      | None => (Raise FileNotFoundError, p)
      | Some (fixed, input, t) =>
          let p := with_package p (mkpackage fixed input (Some t)) in
          if load_config then
            match sv_config dir with
            | None => (Raise FileNotFoundError, p)
            | Some cf => (Ok tt, mkpredictor (p_params p) (p_states p) (p_rng p) (p_num_models p) (p_context_dim p) cf (p_packaged p))
            end
          else (Ok tt, p)
      end
  end.
End Learn.
