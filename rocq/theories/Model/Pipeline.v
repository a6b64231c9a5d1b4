(** putting_dune/pipeline/trajectories_to_transitions.py and align_trajectories.py *)
From Coq Require Import Reals ZArith List Bool.
From Verif Require Import Base.Prelude Base.Rounding Model.MicroscopeUtils Model.Io.
Import ListNotations.
Open Scope R_scope.
Open Scope res_scope.

(** * Transitions *)

(** trajectories_to_transitions.py:56-65: the local variables of the loop over
    the observations of a trajectory.  [None] for before: no observation yet.
    Simplification: grid_before is None exactly if the others are (a grid that
    was observed is never None). *)
Record loop_vars := mkloop_vars {
  lv_grid : grid;
  lv_fov : fov;
  lv_image : option image;
  lv_label_image : option image;
  lv_controls : list control
}.
(** trajectories_to_transitions.py:67-97: the loop over the observations *)
Fixpoint transitions_loop (previous_controls : bool) (before : option loop_vars) (t : trajectory) : list transition :=
  match t with
  | [] => []
  | o :: t =>
      let after := mkloop_vars (o_grid o) (o_fov o) (o_image o) (o_label_image o) (o_controls o) in
      let new :=
        match before with
        | None => []
        | Some b =>
            [mktransition (lv_grid b) (lv_grid after) (lv_fov b) (lv_fov after)
               (if previous_controls then lv_controls after else lv_controls b)
               (lv_image b) (lv_image after) (lv_label_image b) (lv_label_image after)]
        end in
      new ++ transitions_loop previous_controls (Some after) t
  end.
(** trajectories_to_transitions.py:35-98 trajectories_to_transitions *)
Definition trajectories_to_transitions (ts : list trajectory) (previous_controls : bool) : list transition :=
  flat_map (transitions_loop previous_controls None) ts.

(** list(generator), or the first exception *)
Section ListOf.
Context {B M T : Type}.
Variable from_proto : M -> T.
Variable parse : B -> res M.
(** used at trajectories_to_transitions.py:101-109 *)
Fixpoint list_of (fuel : nat) (fs : filesystem B) (g : @generator B) : res (list (record B T)) :=
  match fuel with
  | O => OutOfFuel
  | S fuel =>
      match read_next from_proto parse fs g with
      | (Raise e, _) => Raise e
      | (OutOfFuel, _) => OutOfFuel
      | (Ok None, _) => Ok []
      | (Ok (Some r), g) => rs <- list_of fuel fs g ;; Ok (r :: rs)
      end
  end.
(** the generator stops after the records of the file.
    Used at trajectories_to_transitions.py:101-109. *)
Definition file_fuel (fs : filesystem B) (file : path) : nat :=
  match fs file with Some bs => S (length bs) | None => 1 end.
(** what a typed generator yields are models.
    Used at trajectories_to_transitions.py:101-109. *)
Definition model_of (r : record B T) : list T := match r with ModelRecord t => [t] | RawRecord _ => [] end.
(** used at trajectories_to_transitions.py:101-109 *)
Definition read_models (fs : filesystem B) (file : path) : res (list T) :=
  rs <- list_of (file_fuel fs file) fs (read_records file true) ;; Ok (flat_map model_of rs).
End ListOf.

Section ConvertMain.
Context {B : Type}.
Variable parse_trajectory : B -> res ptrajectory.
Variable serialize_transition : ptransition -> B.
(** trajectories_to_transitions.py:101-109 main *)
Definition convert_main (source target : path) (fs : filesystem B) : res unit * filesystem B :=
  match read_models trajectory_from_proto parse_trajectory fs source with
  | Raise e => (Raise e, fs)
  | OutOfFuel => (OutOfFuel, fs)
  | Ok trajectories =>
      write_records transition_to_proto serialize_transition fs target
        (map ModelRecord (trajectories_to_transitions trajectories false))
  end.
End ConvertMain.

(** * Alignment *)

(** align_trajectories.py:33-44 Args, without the paths and [hybrid], which only
    go into the aligner.  Simplification: at least zero iterations (range of a
    negative number is empty, too). *)
Record align_args := mkalign_args {
  aa_history_length : nat;
  aa_iterations : nat;
  aa_base_step_size : R;
  aa_relabel : bool
}.
Definition default_align_args : align_args := mkalign_args 5 1 1 false.

Section Align.
Context {A : Type}.      (* what the aligner remembers *)
(** aligner.reset(history_length) and aligner(image, fov): the grid and the
    shift it found.  Simplification: shifts are finite. *)
Variable reset : nat -> A -> A.
Variable call : option image -> fov -> A -> res (grid * pt) * A.

(** align_trajectories.py:70-89: the loop over the observations *)
Fixpoint align_loop (relabel : bool) (step_size : R) (t : trajectory) (cumulative_shift : pt) (a : A)
  : res trajectory * A :=
  match t with
  | [] => (Ok [], a)
  | o :: t =>
      match call (o_image o) (fov_shift (o_fov o) (pneg cumulative_shift)) a with
      | (Raise e, a) => (Raise e, a)
      | (OutOfFuel, a) => (OutOfFuel, a)
      | (Ok (extracted_grid, new_shift), a) =>
          let cumulative_shift := padd cumulative_shift (pscale step_size new_shift) in
          let aligned :=
            mkobs (if relabel then extracted_grid else o_grid o) (fov_shift (o_fov o) (pneg cumulative_shift))
                  (o_controls o) (o_elapsed o) (o_image o) (o_label_image o) in
          let '(rest, a) := align_loop relabel step_size t cumulative_shift a in
          (rest <- rest ;; Ok (aligned :: rest), a)
      end
  end.
(** align_trajectories.py:67 *)
Definition step_size_at (args : align_args) (i : nat) : R :=
  aa_base_step_size args + (1 - aa_base_step_size args) * INR i / INR (aa_iterations args).
(** align_trajectories.py:62-92: the remaining iterations *)
Fixpoint align_iterations (args : align_args) (is : list nat) (t : trajectory) (a : A) : res trajectory * A :=
  match is with
  | [] => (Ok t, a)
  | i :: is =>
      match align_loop (aa_relabel args) (step_size_at args i) t pzero (reset (aa_history_length args) a) with
      | (Ok t, a) => align_iterations args is t a
      | (Raise e, a) => (Raise e, a)
      | (OutOfFuel, a) => (OutOfFuel, a)
      end
  end.
(** align_trajectories.py:47-91 do_alignment *)
Definition do_alignment (t : trajectory) (args : align_args) (a : A) : res trajectory * A :=
  align_iterations args (seq 1 (aa_iterations args)) t a.

(** align_trajectories.py:110-113: one aligner for all trajectories *)
Fixpoint align_all (args : align_args) (ts : list trajectory) (a : A) : res (list trajectory) * A :=
  match ts with
  | [] => (Ok [], a)
  | t :: ts =>
      match do_alignment t args a with
      | (Raise e, a) => (Raise e, a)
      | (OutOfFuel, a) => (OutOfFuel, a)
      | (Ok t, a) => let '(r, a) := align_all args ts a in (r <- r ;; Ok (t :: r), a)
      end
  end.

(** align_trajectories.py:94-113 main.  [dir]: the *.recordio files in the
    source, if it is a directory.  An extend that raises has no effect that can
    be seen. *)
Context {B : Type}.
Variable parse : B -> res ptrajectory.
Variable serialize : ptrajectory -> B.
Definition align_main (source target : path) (dir : option (list path)) (args : align_args) (fs : filesystem B) (a : A)
  : res unit * filesystem B * A :=
  let files := match dir with Some files => files | None => [source] end in
  match map_res (read_models trajectory_from_proto parse fs) files with
  | Raise e => (Raise e, fs, a)
  | OutOfFuel => (OutOfFuel, fs, a)
  | Ok tss =>
      match align_all args (concat tss) a with
      | (Raise e, a) => (Raise e, fs, a)
      | (OutOfFuel, a) => (OutOfFuel, fs, a)
      | (Ok ts, a) =>
          let '(r, fs) := write_records trajectory_to_proto serialize fs target (map ModelRecord ts) in
          (r, fs, a)
      end
  end.
End Align.
