(** putting_dune/atom_detection/train.py, putting_dune/image_alignment/train.py and
    putting_dune/graph_alignment/train.py: the steps of training and what is reported about them *)
From Coq Require Import Reals ZArith String List Bool Arith.
From Verif Require Import Base.Prelude Base.Rounding Model.MicroscopeUtils Model.LearnRates Model.ModelTraining.
Import ListNotations.
Open Scope R_scope.
Open Scope list_scope.

(** * Metrics *)

(** clu.metrics.Average of numbers, external. Used at atom_detection/train.py:71-74. *)
Record average := mkaverage { av_total : R; av_count : nat }.
(** used at atom_detection/train.py:71-74 *)
Definition average_empty : average := mkaverage 0 0.
(** used at atom_detection/train.py:71-74 *)
Definition average_add (a : average) (x : R) : average := mkaverage (av_total a + x) (S (av_count a)).
(** [None] is NaN (0 / 0). Used at atom_detection/train.py:71-74. *)
Definition average_compute (a : average) : option R :=
  match av_count a with O => None | S _ => Some (av_total a / INR (av_count a)) end.

(** clu.metrics.Collection, external: an average for every name; the ones of
    atom_detection/train.py:71-74 and :81-83, image_alignment/train.py:75-88 and
    graph_alignment/train.py:115-121 *)
Definition collection := list (string * average).
Definition empty_metrics (names : list string) : collection := map (fun n => (n, average_empty)) names.
Definition merge_metrics (m : collection) (outputs : list (string * R)) : collection :=
  map (fun a => (fst a, match lookup_key (fst a) outputs with Some x => average_add (snd a) x | None => snd a end)) m.
Definition compute_metrics (m : collection) : list (string * option R) := map (fun a => (fst a, average_compute (snd a))) m.

(** atom_detection/train.py:151-152, image_alignment/train.py:266-267 and graph_alignment/train.py:261-262
    prefix_dict_keys *)
Definition prefix_dict_keys {A} (prefix : string) (m : list (string * A)) : list (string * A) :=
  map (fun a => (append prefix (fst a), snd a)) m.
(** Python's dict: d[k] = v, and d |= e *)
Fixpoint dict_set {A} (d : list (string * A)) (k : string) (v : A) : list (string * A) :=
  match d with
  | [] => [(k, v)]
  | (k', v') :: d' => if String.eqb k' k then (k, v) :: d' else (k', v') :: dict_set d' k v
  end.
Definition dict_update {A} (d e : list (string * A)) : list (string * A) := fold_left (fun d a => dict_set d (fst a) (snd a)) e d.

(** * Steps *)
Section Steps.
Context {Params Opt Grads Batch : Type}.
(** the loss of a batch, and what is reported of it *)
Variable loss : Params -> Batch -> R.
Variable outputs : Params -> Batch -> list (string * R).
(** jax.grad and optax.adamw: external *)
Variable gradient : (Params -> R) -> Params -> Grads.
Variable optimizer : Grads -> Opt -> Params -> Params * Opt.

(** flax.training.train_state.TrainState with metrics.
    Used at atom_detection/train.py:86-107. *)
Record train_state := mkstate { ts_step : nat; ts_params : Params; ts_opt : Opt; ts_metrics : collection }.
(** TrainState.apply_gradients, external. Used at atom_detection/train.py:86-107. *)
Definition apply_gradients (s : train_state) (g : Grads) (m : collection) : train_state :=
  let '(p, o) := optimizer g (ts_opt s) (ts_params s) in mkstate (S (ts_step s)) p o m.
(** used at image_alignment/train.py:162-208 *)
Definition replace_metrics (s : train_state) (m : collection) : train_state := mkstate (ts_step s) (ts_params s) (ts_opt s) m.

(** atom_detection/train.py:86-107 and image_alignment/train.py:106-159 train_step, and
    graph_alignment/train.py:139-235 train_step with do_grad_step *)
Definition train_step (s : train_state) (b : Batch) : train_state :=
  let grads := gradient (fun p => loss p b) (ts_params s) in
  let infos := outputs (ts_params s) b in
  apply_gradients s grads (merge_metrics (ts_metrics s) infos).
(** image_alignment/train.py:162-208 eval_step, and graph_alignment/train.py:139-235
    train_step without do_grad_step *)
Definition eval_step (s : train_state) (b : Batch) : train_state :=
  replace_metrics s (merge_metrics (ts_metrics s) (outputs (ts_params s) b)).
(** atom_detection/train.py:111-125 eval_step, which only keeps the metrics *)
Definition eval_metrics_step (s : train_state) (m : collection) (b : Batch) : collection :=
  merge_metrics m (outputs (ts_params s) b).

(** atom_detection/train.py:222-257, image_alignment/train.py:394-430 and
    graph_alignment/train.py:388-424: an epoch *)
Definition reported (train eval : collection) : list (string * option R) :=
  dict_update (prefix_dict_keys "train/" (compute_metrics train)) (prefix_dict_keys "eval/" (compute_metrics eval)).
Definition train_batches (names : list string) (s : train_state) (batches : list Batch) : train_state :=
  fold_left train_step batches (replace_metrics s (empty_metrics names)).
Definition epoch (names : list string) (s : train_state) (train test : list Batch) : train_state * list (string * option R) :=
  let s := train_batches names s train in
  let evaluated := fold_left eval_step test (replace_metrics s (empty_metrics names)) in
  (s, reported (ts_metrics s) (ts_metrics evaluated)).
Definition detection_epoch (names eval_names : list string) (s : train_state) (train test : list Batch) : train_state * list (string * option R) :=
  let s := train_batches names s train in
  let evaluated := fold_left (eval_metrics_step s) test (empty_metrics eval_names) in
  (s, reported (ts_metrics s) evaluated).
End Steps.

(** * What is reported *)

(** used at atom_detection/train.py:94-96 *)
Fixpoint map2 {A B C} (f : A -> B -> C) (l : list A) (m : list B) : list C :=
  match l, m with
  | x :: l, y :: m => f x y :: map2 f l m
  | _, _ => []
  end.
(** optax.softmax_cross_entropy of the logits and the target of a pixel, external.
    Used at atom_detection/train.py:94-96. *)
Definition softmax_cross_entropy (logits target : list R) : R := - rsum (map2 Rmult target (log_softmax logits)).
(** the mean of booleans. Used at atom_detection/train.py:97-99. *)
Definition indicator (b : bool) : R := if b then 1 else 0.
(** used at atom_detection/train.py:97-99 *)
Definition same_index (i j : option nat) : bool :=
  match i, j with Some i, Some j => (i =? j)%nat | None, None => true | _, _ => false end.

Section Detection.
Context {Params Image : Type}.
(** the network: the logits of every pixel *)
Variable network : Params -> Image -> list (list R).
(** a batch: images with the targets of their pixels *)
Definition dbatch := list (Image * list (list R)).
(** atom_detection/train.py:94-96 *)
Definition detection_loss (p : Params) (b : dbatch) : R :=
  mean (flat_map (fun e => map2 softmax_cross_entropy (network p (fst e)) (snd e)) b).
(** atom_detection/train.py:97-99 and :118-123 *)
Definition detection_accuracy (p : Params) (b : dbatch) : R :=
  mean (map indicator (flat_map (fun e => map2 (fun x t => same_index (argmax x) (argmax t)) (network p (fst e)) (snd e)) b)).
(** atom_detection/train.py:101 *)
Definition detection_outputs (p : Params) (b : dbatch) : list (string * R) :=
  [("accuracy"%string, detection_accuracy p b); ("loss"%string, detection_loss p b)].
End Detection.

Section Alignment.
Context {Params Image : Type}.
(** the network: the logits of every pixel at every time, and the drift at every time *)
Variable network : Params -> Image -> list (list (list R)) * list pt.
(** An example.  Logits and drifts have the shape of the targets.
    Used at image_alignment/train.py:118-120. *)
Record aexample := mkexample { ax_image : Image; ax_mask : list (list (list R)); ax_drift : list pt }.
(** used at image_alignment/train.py:118-120 *)
Definition abatch := list aexample.

(** a[..., -1] *)
Definition last_of (l : list (list R)) : list R := map (fun x => last x 0) l.
(** image_alignment/train.py:118-120: the losses of all pixels of the batch, at every time *)
Definition pixel_losses (p : Params) (b : abatch) : list (list R) :=
  flat_map (fun e => map2 (map2 softmax_cross_entropy) (fst (network p (ax_image e))) (ax_mask e)) b.
(** image_alignment/train.py:123-124, 130: the errors of the drifts *)
Definition drift_differences (p : Params) (b : abatch) : list (list pt) :=
  map (fun e => map2 psub (ax_drift e) (snd (network p (ax_image e)))) b.
(** image_alignment/train.py:127: argmax(batch['mask']), without an axis: the index in
    all numbers of the batch *)
Definition mask_argmax (b : abatch) : option nat := argmax (concat (concat (flat_map ax_mask b))).
Definition accuracies (p : Params) (b : abatch) : list (list R) :=
  flat_map (fun e => map (map (fun x => indicator (same_index (argmax x) (mask_argmax b)))) (fst (network p (ax_image e)))) b.

(** image_alignment/train.py:120-121, 125-132 *)
Definition alignment_loss (p : Params) (b : abatch) : R := mean (concat (pixel_losses p b)).
Definition final_loss (p : Params) (b : abatch) : R := mean (last_of (pixel_losses p b)).
Definition drift_loss (p : Params) (b : abatch) : R := mean (concat (map (map psq) (drift_differences p b))).
Definition final_drift_loss (p : Params) (b : abatch) : R := mean (last_of (map (map psq) (drift_differences p b))).
Definition alignment_accuracy (p : Params) (b : abatch) : R := mean (concat (accuracies p b)).
Definition final_accuracy (p : Params) (b : abatch) : R := mean (last_of (accuracies p b)).
Definition drift_error (p : Params) (b : abatch) : R := mean (concat (map (map pnorm) (drift_differences p b))).
Definition final_drift_error (p : Params) (b : abatch) : R := mean (last_of (map (map pnorm) (drift_differences p b))).

(** image_alignment/train.py:134-140 *)
Definition total_loss (drift_loss_weight : R) (final_only : bool) (p : Params) (b : abatch) : R :=
  (if final_only then final_loss p b else alignment_loss p b)
  + drift_loss_weight * (if final_only then final_drift_loss p b else drift_loss p b).
(** image_alignment/train.py:134-151 and :187-202 *)
Definition alignment_outputs (final_only : bool) (p : Params) (b : abatch) : list (string * R) :=
  [("accuracy"%string, if final_only then final_accuracy p b else alignment_accuracy p b);
   ("loss"%string, if final_only then final_loss p b else alignment_loss p b);
   ("drift_loss"%string, if final_only then final_drift_loss p b else drift_loss p b);
   ("drift_error"%string, if final_only then final_drift_error p b else drift_error p b);
   ("final_step_accuracy"%string, final_accuracy p b);
   ("final_step_loss"%string, final_loss p b);
   ("final_step_drift_loss"%string, final_drift_loss p b);
   ("final_step_drift_error"%string, final_drift_error p b)].
End Alignment.
