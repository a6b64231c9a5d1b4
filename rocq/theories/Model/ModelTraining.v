(** The training scripts of the networks (atom_detection/train.py,
    image_alignment/train.py, graph_alignment/train.py) as programs that write
    checkpoints, and the scripts that package a trained network
    (atom_detection/save_model.py, image_alignment/save_model.py).

    What happens within an epoch (networks, gradients, data) is external here:
    [epoch i] is the effect of the [i]-th epoch of a run on the state.  The data
    iterators are created once in a run and are not part of a checkpoint. *)
From Coq Require Import List Bool String Arith Reals.
From Verif Require Import Base.Prelude Model.Downloads.
Import ListNotations.
Local Open Scope list_scope.

Section Checkpoints.
(** the saved form of a training state, and the metrics of an epoch *)
Context {Saved Metric : Type}.
(** used at atom_detection/train.py:212-219 *)
Record checkpoint := mkcheckpoint { ck_step : nat; ck_items : Saved; ck_metrics : option Metric }.
(** used at atom_detection/train.py:212-219 *)
Definition store := list checkpoint.

(** orbax CheckpointManager.latest_step, external: the greatest step.
    Used at atom_detection/train.py:212-219. *)
Fixpoint latest_step (s : store) : option nat :=
  match s with
  | [] => None
  | c :: s' => match latest_step s' with None => Some (ck_step c) | Some n => Some (Nat.max (ck_step c) n) end
  end.
(** orbax CheckpointManager.save without force, external: nothing happens unless
    the step is after the latest one.  A checkpoint becomes visible in one step
    (it is written elsewhere and renamed). Used at atom_detection/train.py:222-274. *)
Definition save_checkpoint (s : store) (c : checkpoint) : store :=
  match latest_step s with
  | Some l => if ck_step c <=? l then s else s ++ [c]
  | None => s ++ [c]
  end.
(** CheckpointManager.restore(step): what was saved at the step.
    Used at atom_detection/train.py:212-219. *)
Definition restore_step (s : store) (n : nat) : option checkpoint := find (fun c => ck_step c =? n) s.

(** CheckpointManager.best_step with the default best_mode "max", external: the
    checkpoints that have metrics, sorted by [best_fn] (a stable sort); the last
    one. Used at atom_detection/save_model.py:82-84. *)
Definition better (best_fn : Metric -> R) (best : option (checkpoint * R)) (c : checkpoint) : option (checkpoint * R) :=
  match ck_metrics c with
  | None => best
  | Some m =>
      match best with
      | None => Some (c, best_fn m)
      | Some (_, v) => if Rleb v (best_fn m) then Some (c, best_fn m) else best
      end
  end.
(** used at atom_detection/save_model.py:82-84 *)
Definition best_checkpoint (best_fn : Metric -> R) (s : store) : option checkpoint :=
  option_map fst (fold_left (better best_fn) s None).
End Checkpoints.

Section Train.
Context {State Saved Metric : Type}.
(** TrainState.create(...) of a run: atom_detection/train.py:187-192,
    image_alignment/train.py:327-332, graph_alignment/train.py:353-358 *)
Variable fresh : State.
(** functools.reduce(train_step, ...): atom_detection/train.py:226-239,
    image_alignment/train.py:398-412, graph_alignment/train.py:392-405 *)
Variable epoch : nat -> State -> State.
(** the metrics of an epoch: atom_detection/train.py:241-258,
    image_alignment/train.py:414-431, graph_alignment/train.py:406-425 *)
Variable measure : nat -> State -> Metric.
(** what is given to save, and what a restored checkpoint becomes: the state
    itself (atom_detection/train.py:214-219, image_alignment/train.py:354-358),
    or the state with sanitized keys (graph_alignment/train.py:367-375, 427-429) *)
Variable pack : State -> Saved.
Variable unpack : State -> Saved -> State.
(** config.epochs *)
Variable epochs : nat.

(** `if latest_step := chkpt_manager.latest_step():` atom_detection/train.py:212-219,
    image_alignment/train.py:346-358, graph_alignment/train.py:365-375 *)
Definition starting_state (s : @store Saved Metric) : State :=
  match latest_step s with
  | Some (S n) => match restore_step s (S n) with Some c => unpack fresh (ck_items c) | None => fresh end
  | _ => fresh
  end.
(** `chkpt_manager.latest_step() or 0`: atom_detection/train.py:223,
    image_alignment/train.py:395, graph_alignment/train.py:389 *)
Definition starting_epoch (s : @store Saved Metric) : nat := match latest_step s with Some n => n | None => 0 end.

(** [n] epochs of the loop from epoch [e], the [i]-th of this run:
    atom_detection/train.py:222-274, image_alignment/train.py:394-447,
    graph_alignment/train.py:388-445 *)
Fixpoint run_epochs (n i e : nat) (st : State) (s : @store Saved Metric) : State * @store Saved Metric :=
  match n with
  | 0 => (st, s)
  | S n' =>
      let st' := epoch i st in
      run_epochs n' (S i) (S e) st' (save_checkpoint s (mkcheckpoint e (pack st') (Some (measure i st'))))
  end.
(** the number of epochs of a run *)
Definition epochs_left (s : @store Saved Metric) : nat := epochs - starting_epoch s.
(** atom_detection/train.py:155-277 train, image_alignment/train.py:270-450 train,
    graph_alignment/train.py:265-451 train *)
Definition train (s : @store Saved Metric) : State * @store Saved Metric :=
  let (st, s') := run_epochs (epochs_left s) 0 (starting_epoch s) (starting_state s) s in
  (st, save_checkpoint s' (mkcheckpoint epochs (pack st) None)).
(** what is left when a run is killed after [n] epochs: a checkpoint is written
    in one step, so it is killed between two of them *)
Definition killed (n : nat) (s : @store Saved Metric) : @store Saved Metric :=
  snd (run_epochs (Nat.min n (epochs_left s)) 0 (starting_epoch s) (starting_state s) s).
End Train.

(** * Packaging *)

(** A nested dictionary of parameters *)
Inductive param_tree (A : Type) : Type :=
| PLeaf (a : A)
| PNode (items : list (string * param_tree A)).
Arguments PLeaf {A} a.
Arguments PNode {A} items.
(** the value of a key of a dictionary *)
Definition lookup_key {A} (k : string) (items : list (string * A)) : option A :=
  option_map snd (find (fun i => String.eqb (fst i) k) items).
(** image_alignment/save_model.py:99-106 remove_value_layer *)
Fixpoint remove_value_layer {A} (t : param_tree A) : param_tree A :=
  match t with
  | PLeaf a => PLeaf a
  | PNode items =>
      match lookup_key "value" items with
      | Some v => v
      | None => PNode (map (fun i => (fst i, remove_value_layer (snd i))) items)
      end
  end.
Section Packaging.
Context {Byte Net : Type}.
(** tf.saved_model.save(module, path), external: the files of a network below
    the path *)
Variable saved_files : Net -> list (name_path * list Byte).

(** atom_detection/save_model.py:115-126: the archive holds the files by their
    full path, of which ZipFile.write drops the leading slash; [tmpdir] is the
    path of the temporary directory.  Entries for directories are not modelled. *)
Definition detector_archive (tmpdir : name_path) (n : Net) : list (name_path * list Byte) :=
  map (fun f => (tmpdir ++ "packaged"%string :: fst f, snd f)) (saved_files n).
(** image_alignment/save_model.py:138-151: the same, but the temporary directory
    is removed from the paths *)
Definition drop_prefix (tmpdir p : name_path) : name_path :=
  if path_eqb (firstn (length tmpdir) p) tmpdir then skipn (length tmpdir) p else p.
Definition aligner_archive (tmpdir : name_path) (n : Net) : list (name_path * list Byte) :=
  map (fun f => (drop_prefix tmpdir (tmpdir ++ "image-alignment-model"%string :: fst f), snd f)) (saved_files n).

Context {Saved Metric : Type}.
(** the network in a checkpoint; external (restoring into flax) *)
Variable network : Saved -> Net.
(** atom_detection/save_model.py:82-84, image_alignment/save_model.py:95-97: the packaged network is that of the best
    step.  An exception if there is none. *)
Definition packaged (best_fn : Metric -> R) (s : @store Saved Metric) : res Net :=
  match best_checkpoint best_fn s with
  | Some c => Ok (network (ck_items c))
  | None => Raise FileNotFoundError
  end.
(** atom_detection/save_model.py:64-126 save: what is copied to the target.
    The target is not written if it exists and overwrite is not set (an
    exception). *)
Definition save_detector (accuracy : Metric -> R) (tmpdir : name_path) (s : @store Saved Metric)
    : res (list (name_path * list Byte)) :=
  match packaged accuracy s with
  | Ok n => Ok (detector_archive tmpdir n)
  | Raise e => Raise e
  | OutOfFuel => OutOfFuel
  end.
(** image_alignment/save_model.py:66-151 save; the score at 77 *)
Definition aligner_score (loss drift_error : Metric -> R) (m : Metric) : R := (- loss m - drift_error m)%R.
Definition save_aligner (loss drift_error : Metric -> R) (tmpdir : name_path) (s : @store Saved Metric)
    : res (list (name_path * list Byte)) :=
  match packaged (aligner_score loss drift_error) s with
  | Ok n => Ok (aligner_archive tmpdir n)
  | Raise e => Raise e
  | OutOfFuel => OutOfFuel
  end.
End Packaging.
