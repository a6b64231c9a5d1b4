(** The models that are downloaded or unpacked once and kept on disk:
    experiments/registry.py _TfAgentCreator, atom_detector.py from_url,
    alignment.py from_path.

    A run is a list of writes to the disk and a result.  It may be cut after any
    of its writes (a crash).  Every path is relative to the directory that holds
    `model_weights`; that directory exists. *)
From Coq Require Import List Bool String.
From Verif Require Import Base.Prelude.
Import ListNotations.
Local Open Scope string_scope.
Local Open Scope list_scope.

(** used at registry.py:96 *)
Definition name_path := list string.
(** used at image_alignment/save_model.py:138-151 *)
Definition path_eqb (p q : name_path) : bool := if list_eq_dec string_dec p q then true else false.

Section Disk.
(** a byte, and a loaded model *)
Context {Byte Net : Type}.

(** directories, and files with their content. Used at registry.py:78-112. *)
Record disk := mkdisk {
  d_dir : name_path -> bool;
  d_file : name_path -> option (list Byte)
}.
(** used at registry.py:78-112 *)
Inductive write :=
| Mkdir (p : name_path)
| Put (p : name_path) (content : list Byte)
| Unlink (p : name_path).
(** used at registry.py:78-112 *)
Definition do_write (d : disk) (w : write) : disk :=
  match w with
  | Mkdir p => mkdisk (fun q => path_eqb p q || d_dir d q) (d_file d)
  | Put p c => mkdisk (d_dir d) (fun q => if path_eqb p q then Some c else d_file d q)
  | Unlink p => mkdisk (d_dir d) (fun q => if path_eqb p q then None else d_file d q)
  end.
(** used at registry.py:78-112 *)
Definition do_writes (d : disk) (ws : list write) : disk := fold_left do_write ws d.
(** path.exists(). Used at registry.py:78-112. *)
Definition exists_path (d : disk) (p : name_path) : bool :=
  d_dir d p || match d_file d p with Some _ => true | None => false end.

(** the proper and improper ancestors of a path, outermost first, without the
    root. Used at atom_detector.py:90-117. *)
Definition ancestors (p : name_path) : list name_path := map (fun n => firstn n p) (seq 1 (length p)).
(** path.mkdir(parents=True, exist_ok=True).  Simplification: no ancestor is a
    file. Used at atom_detector.py:90-117. *)
Definition mkdirs (p : name_path) : list write := map Mkdir (ancestors p).
(** the files of a directory, by the rest of their path. Used at registry.py:78-112. *)
Definition files_in (d : disk) (p : name_path) : name_path -> option (list Byte) := fun q => d_file d (p ++ q).

(** zipfile.ZipFile(content): the files in it with their paths, or an exception;
    external *)
Variable unzip : list Byte -> res (list (name_path * list Byte)).
(** ZipFile.extractall(base): every file is created in its directory and then
    filled.  Simplification: it is filled at once; entries for directories and
    paths that leave the base are not modelled. Used at registry.py:78-112. *)
Definition extract_entry (base : name_path) (entry : name_path * list Byte) : list write :=
  let p := (base ++ fst entry) in
  (mkdirs (removelast p) ++ [Put p []; Put p (snd entry)]).
(** used at registry.py:78-112 *)
Definition extract_all (base : name_path) (entries : list (name_path * list Byte)) : list write :=
  flat_map (extract_entry base) entries.

(** What the network does in a run: the blocks that arrive, and the exception
    after them if the transfer fails. Used at registry.py:78-112. *)
Definition transfer := (list (list Byte) * option exn)%type.
(** urllib.request.urlretrieve(url, p): the file is created empty and grows with
    every block. Used at registry.py:78-112. *)
Fixpoint put_blocks (p : name_path) (before : list Byte) (blocks : list (list Byte)) : list write :=
  match blocks with
  | [] => []
  | b :: bs => Put p (before ++ b) :: put_blocks p (before ++ b) bs
  end.
(** used at registry.py:78-112 *)
Definition retrieve (p : name_path) (t : transfer) : list write := Put p [] :: put_blocks p [] (fst t).

(** tf.saved_model.load(path), external: a function of the files there *)
Variable load : (name_path -> option (list Byte)) -> res Net.

Definition weights : name_path := ["model_weights"].
(** registry.py:96 *)
Definition zip_path : name_path := (weights ++ ["tmp.zip"]).

(** registry.py:78-112 _TfAgentCreator.__call__: [net] is what the network does
    if the download_url is retrieved *)
Definition tf_agent (model_name : string) (net : transfer) (d : disk) : list write * res Net :=
  let model_path := (weights ++ [model_name]) in
  let made := [Mkdir weights] in
  let load_after ws := (ws, load (files_in (do_writes d ws) model_path)) in
  if exists_path d model_path then load_after made
  else
    let got := (made ++ retrieve zip_path net) in
    match snd net with
    | Some e => (got, Raise e)
    | None =>
        match unzip (concat (fst net)) with
        | Raise e => (got, Raise e)
        | OutOfFuel => (got, OutOfFuel)
        | Ok entries => load_after (got ++ extract_all weights entries ++ [Unlink zip_path])
        end
    end.

(** atom_detector.py:90-117 AtomDetector.from_url; the path of the model is
    what the detector keeps.  The archive is read to memory. *)
Definition detector_path : name_path := ["model_weights"; "atom-detection-model"].
Definition detector_from_url (net : transfer) (d : disk) : list write * res name_path :=
  if exists_path d detector_path then ([], Ok detector_path)
  else
    let made := mkdirs detector_path in
    match snd net with
    | Some e => (made, Raise e)
    | None =>
        match unzip (concat (fst net)) with
        | Raise e => (made, Raise e)
        | OutOfFuel => (made, OutOfFuel)
        | Ok entries => (made ++ extract_all (removelast detector_path) entries, Ok detector_path)
        end
    end.

(** alignment.py:461-489 ImageAligner.from_path with the default workdir; the
    archive is a file, [None] if it cannot be opened *)
Definition aligner_path : name_path := ["model_weights"; "image-alignment-model"].
Definition aligner_from_path (archive : option (list Byte)) (reload : bool) (d : disk) : list write * res name_path :=
  if negb (exists_path d aligner_path) || reload then
    let made := mkdirs aligner_path in
    match archive with
    | None => (made, Raise FileNotFoundError)
    | Some content =>
        match unzip content with
        | Raise e => (made, Raise e)
        | OutOfFuel => (made, OutOfFuel)
        | Ok entries => (made ++ extract_all (removelast aligner_path) entries, Ok aligner_path)
        end
    end
  else ([], Ok aligner_path).

(** What is left on disk when a run is cut after [n] writes. Used at registry.py:78-112. *)
Definition cut (n : nat) (ws : list write) (d : disk) : disk := do_writes d (firstn n ws).
End Disk.
