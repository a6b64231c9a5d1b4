(** putting_dune/pipeline/upload_microscope_data.py *)
From Coq Require Import Reals ZArith List Bool Arith Ascii String.
From Verif Require Import Base.Prelude Base.Rounding Model.MicroscopeUtils Model.Io.
Import ListNotations.
Open Scope R_scope.
Open Scope res_scope.

(** * What the microscope has saved *)

(** the array of images: all of the same height and width, with or without
    channels.  Simplification: heights and widths are not zero.
    Used at upload_microscope_data.py:44-119. *)
Record stack := mkstack {
  st_images : list image;
  st_height : nat;
  st_width : nat;
  st_channels : option nat
}.
(** the metadata of one frame; [None] for a key that is missing.  A dwell time
    of NaN is [Some None].  Simplification: coordinates and shifts are finite
    and have two columns. Used at upload_microscope_data.py:98-117. *)
Record entry := mkentry {
  en_readout_time : option R;
  en_coordinates : option (list pt);
  en_fov : option R;
  en_dopants : option (list pt);
  en_beam : option (list pt);
  en_dwell : option (option R);
  en_intensities : option (list R);
  en_shifts : option pt
}.
(** the label file: the height of its images and the metadata by frame.
    Simplification: the names of frames are numbers.
    Used at upload_microscope_data.py:44-119. *)
Record labels := mklabels { la_height : nat; la_metadata : list (nat * entry) }.
(** used at upload_microscope_data.py:44-119 *)
Record dataset := mkdataset { ds_images : stack; ds_labels : option labels }.

(** * Loading *)

(** coordinates and parameters of a frame, as far as they are used; [None]: NaN *)
Record frame := mkframe {
  fr_image : list pt;
  fr_fov : R;
  fr_dopants : list (option pt);
  fr_beam : list (option pt);
  fr_dwell : option R;
  fr_shifts : pt
}.
Definition get_key {A} (o : option A) : res A := match o with Some a => Ok a | None => Raise KeyError end.
(** upload_microscope_data.py:98-117: everything, or NaNs *)
Definition measurements (factor : R) (e : entry) : list (option pt) * list (option pt) * option R * pt :=
  match en_dopants e, en_beam e, en_dwell e, en_intensities e, en_shifts e with
  | Some dopants, Some beam, Some dwell, Some _, Some shifts =>
      (map (fun p => Some (pscale factor p)) dopants, map (fun p => Some (pscale factor p)) beam, dwell, shifts)
  | _, _, _, _, _ => ([None], [None], None, pzero)
  end.
(** upload_microscope_data.py:90-117: one frame *)
Definition load_frame (factor : R) (e : entry) : res frame :=
  coordinates <- get_key (en_coordinates e) ;;
  fov <- get_key (en_fov e) ;;
  let '(dopants, beam, dwell, shifts) := measurements factor e in
  Ok (mkframe (map (pscale factor) coordinates) fov dopants beam dwell shifts).
(** upload_microscope_data.py:44-119 load_dataset; the coordinates and the
    parameters have the same keys *)
Definition load_dataset (d : dataset) : res (stack * list (nat * frame)) :=
  match ds_labels d with
  | None => Raise FileNotFoundError
  | Some la =>
      let stacklength := length (la_metadata la) in
      let s := ds_images d in
      let s := mkstack (firstn stacklength (st_images s)) (st_height s) (st_width s) (st_channels s) in
      if (la_height la =? 0)%nat then Raise ZeroDivisionError
      else
        let factor := INR (st_height s) / INR (la_height la) in
        if existsb (fun ke => match en_readout_time (snd ke) with Some _ => true | None => false end) (la_metadata la) then
          frames <- map_res (fun ke => fmap_res (pair (fst ke)) (load_frame factor (snd ke))) (la_metadata la) ;;
          Ok (s, frames)
        else Raise ValueError
  end.

(** * Conversion *)

Fixpoint lookup_frame (t : nat) (frames : list (nat * frame)) : res frame :=
  match frames with
  | [] => Raise KeyError
  | (k, f) :: frames => if (k =? t)%nat then Ok f else lookup_frame t frames
  end.
(** upload_microscope_data.py:150-153: NaNs match nothing *)
Definition is_dopant (dopants : list (option pt)) (p : pt) : bool :=
  existsb (fun d => match d with Some d => Rltb (pnorm (psub p d)) (1 / 1000000) | None => false end) dopants.
(** upload_microscope_data.py:142-190: one frame, or the break ([None]).
    Indexing or dividing an array made of an empty list raises, and so does
    dividing by a size with channels. *)
Definition convert_frame (s : stack) (frames : list (nat * frame)) (t : nat) (im : image) (corners : pt * pt)
  : res (option (observation * (pt * pt))) :=
  f <- lookup_frame t frames ;;
  let size := mkpt (INR (st_height s)) (INR (st_width s)) in
  match fr_image f, st_channels s with
  | [], _ => Raise IndexError
  | _, Some _ => Raise ValueError
  | _, None =>
      let grid := map (fun p => pdiv p size) (fr_image f) in
      if (length frames <=? 3)%nat then Ok None
      else
        match fr_dopants f with
        | [] => Raise ValueError
        | _ =>
            let dopants := map (option_map (fun p => pdiv p size)) (fr_dopants f) in
            let numbers := map (fun p => if is_dopant dopants p then 14%Z else 6%Z) grid in
            let shift := pdiv (pscale (10 * fr_fov f) (fr_shifts f)) size in
            let corners := (padd (fst corners) shift, padd (snd corners) shift) in
            let fov := mkfov (fst corners) (snd corners) in
            ce <- match fr_dwell f with
                  | None => Ok ([], td_seconds 2)
                  | Some dwell =>
                      match fr_beam f with
                      | [] => Raise IndexError
                      | None :: _ => Raise AssertionError        (* not with a dwell time, see [measurements] *)
                      | Some beam :: _ =>
                          let beam := to_material_pt fov (pdiv beam size) in
                          Ok ([beam_control beam (td_seconds dwell)], td_seconds (dwell + 2))
                      end
                  end ;;
            Ok (Some (mkobs (mkgrid grid numbers) fov (fst ce) (snd ce) (Some im) None, corners))
        end
  end.
(** upload_microscope_data.py:142-190: the loop *)
Fixpoint convert_loop (s : stack) (frames : list (nat * frame)) (t : nat) (images : list image) (corners : pt * pt) : res trajectory :=
  match images with
  | [] => Ok []
  | im :: images =>
      r <- convert_frame s frames t im corners ;;
      match r with
      | None => Ok []
      | Some (o, corners) => rest <- convert_loop s frames (S t) images corners ;; Ok (o :: rest)
      end
  end.
(** upload_microscope_data.py:122-191 convert_dataset_to_proto *)
Definition convert_dataset_to_proto (s : stack) (frames : list (nat * frame)) : res trajectory :=
  f <- lookup_frame 0 frames ;;
  convert_loop s frames 0 (st_images s) (pzero, mkpt (10 * fr_fov f) (10 * fr_fov f)).

(** * Names *)

Definition is_upper (c : ascii) : bool := (65 <=? nat_of_ascii c)%nat && (nat_of_ascii c <=? 90)%nat.
Definition is_lower (c : ascii) : bool := (97 <=? nat_of_ascii c)%nat && (nat_of_ascii c <=? 122)%nat.
Definition is_digit (c : ascii) : bool := (48 <=? nat_of_ascii c)%nat && (nat_of_ascii c <=? 57)%nat.
Definition lower (c : ascii) : ascii := if is_upper c then ascii_of_nat (nat_of_ascii c + 32) else c.
Definition next_is (p : ascii -> bool) (s : name) : bool := match s with [] => false | c :: _ => p c end.
(** inflection.underscore, for ASCII: re.sub(r'([A-Z]+)([A-Z][a-z])', r'\1_\2'):
    before a capital between a capital and a lower case letter *)
Fixpoint split_acronyms (before : bool) (s : name) : name :=
  match s with
  | [] => []
  | c :: s => (if before && is_upper c && next_is is_lower s then ["_"%char; c] else [c]) ++ split_acronyms (is_upper c) s
  end.
(** re.sub(r'([a-z\d])([A-Z])', r'\1_\2'): before a capital after a lower case
    letter or a digit *)
Fixpoint split_words (before : bool) (s : name) : name :=
  match s with
  | [] => []
  | c :: s => (if before && is_upper c then ["_"%char; c] else [c]) ++ split_words (is_lower c || is_digit c) s
  end.
(** inflection.underscore: then replace('-', '_') and lower() *)
Definition underscore (s : name) : name :=
  map (fun c => lower (if Ascii.eqb c "-" then "_"%char else c)) (split_words false (split_acronyms false s)).
(** '-'.join *)
Fixpoint join (parts : list name) : name :=
  match parts with
  | [] => []
  | [p] => p
  | p :: parts => p ++ "-"%char :: join parts
  end.
(** PurePath.with_suffix of a path that is one name; without a name it raises *)
Definition with_suffix (n suffix : name) : res name :=
  match n with
  | [] => Raise ValueError
  | _ =>
      let old := path_suffix (mkpath false [n]) in
      Ok (firstn (length n - length old) n ++ suffix)
  end.
Definition riegeli : name := list_ascii_of_string ".riegeli".
(** upload_microscope_data.py:214-223 *)
Definition blob_name (parts : list name) : res name := with_suffix (join (map underscore parts)) riegeli.

(** * The script *)

Section Main.
Context {B : Type}.
Variable serialize : ptrajectory -> B.
(** the blobs of the bucket, and the records in them.
    Used at upload_microscope_data.py:213-252. *)
Definition bucket : Type := name -> option (list B).
(** used at upload_microscope_data.py:213-252 *)
Definition upload (b : bucket) (n : name) (records : list B) : bucket := fun m => if list_eq_dec ascii_dec m n then Some records else b m.

(** upload_microscope_data.py:213-252: one dataset.  Only loading may raise a ValueError. *)
Definition upload_dataset (parts : list name) (d : dataset) (b : bucket) : res unit * bucket :=
  match blob_name parts with
  | Raise e => (Raise e, b)
  | OutOfFuel => (OutOfFuel, b)
  | Ok filename =>
      match load_dataset d with
      | Raise ValueError => (Ok tt, b)
      | Raise e => (Raise e, b)
      | OutOfFuel => (OutOfFuel, b)
      | Ok (s, frames) =>
          match (t <- convert_dataset_to_proto s frames ;; trajectory_to_proto t) with
          | Raise e => (Raise e, b)
          | OutOfFuel => (OutOfFuel, b)
          | Ok m => (Ok tt, upload b filename [serialize m])
          end
      end
  end.
Fixpoint upload_all (datasets : list (list name * dataset)) (b : bucket) : res unit * bucket :=
  match datasets with
  | [] => (Ok tt, b)
  | (parts, d) :: datasets =>
      match upload_dataset parts d b with
      | (Ok tt, b) => upload_all datasets b
      | (Raise e, b) => (Raise e, b)
      | (OutOfFuel, b) => (OutOfFuel, b)
      end
  end.
(** upload_microscope_data.py:199-202: datasets below the directory, by their
    parts relative to it; one in the directory itself is not found *)
Definition found (datasets : list (list name * dataset)) : list (list name * dataset) :=
  filter (fun pd => match fst pd with [] => false | _ => true end) datasets.
(** upload_microscope_data.py:194-252 main: the exit status, or an exception.
    [datasets]: all directories with a stack of images, in the order of rglob. *)
Definition upload_main (datasets : list (list name * dataset)) (b : bucket) : res Z * bucket :=
  match found datasets with
  | [] => (Ok 1%Z, b)
  | ds => let '(r, b) := upload_all ds b in (fmap_res (fun _ => 0%Z) r, b)
  end.
End Main.
