(** putting_dune/io.py *)
From Coq Require Import List Bool Arith Ascii String.
From Verif Require Import Base.Prelude.
Import ListNotations.
Local Open Scope char_scope.

(** * pathlib's paths, as far as io.py uses them (epath.Path(file)) *)

(** used at io.py:53, 72 *)
Definition name := list ascii.

(** str.split('/'). Used at io.py:53, 72. *)
Fixpoint split_slash (l : list ascii) : list name :=
  match l with
  | [] => [[]]
  | c :: l =>
      if Ascii.eqb c "/" then [] :: split_slash l
      else match split_slash l with
           | [] => [[c]]
           | n :: ns => (c :: n) :: ns
           end
  end.

(** A path: whether it is absolute, and its components.  Empty components and
    single dots are dropped.  Simplification: a leading double slash is
    treated as a single one. Used at io.py:53, 72. *)
Record path := mkpath { path_absolute : bool; path_components : list name }.
(** used at io.py:53, 72 *)
Definition real_component (n : name) : bool :=
  negb (match n with [] => true | [c] => Ascii.eqb c "." | _ => false end).
(** used at io.py:53, 72 *)
Definition path_of (file : string) : path :=
  let l := list_ascii_of_string file in
  mkpath (match l with c :: _ => Ascii.eqb c "/" | [] => false end)
         (filter real_component (split_slash l)).

(** str.rfind(c). Used at io.py:53, 72. *)
Fixpoint rfind (c : ascii) (l : list ascii) : option nat :=
  match l with
  | [] => None
  | d :: l =>
      match rfind c l with
      | Some i => Some (S i)
      | None => if Ascii.eqb d c then Some 0 else None
      end
  end.

(** PurePath.name and PurePath.suffix. Used at io.py:53, 72. *)
Definition path_name (p : path) : name := last (path_components p) [].
(** used at io.py:53, 72 *)
Definition path_suffix (p : path) : list ascii :=
  let n := path_name p in
  match rfind "." n with
  | Some i => if (0 <? i)%nat && (i <? List.length n - 1)%nat then skipn i n else []
  | None => []
  end.

(** io.py:53, 72: case ".tfrecords" *)
Definition tfrecords : list ascii := list_ascii_of_string ".tfrecords".
Definition is_tfrecords (p : path) : bool :=
  if list_eq_dec ascii_dec (path_suffix p) tfrecords then true else false.

(** * Records *)

(** What is written and read: strings as they are, or ProtoModels. Used at io.py:78-79. *)
Inductive record (B T : Type) :=
| RawRecord (b : B)
| ModelRecord (t : T).
Arguments RawRecord {B T}.
Arguments ModelRecord {B T}.

(** The record files that exist, with the records in them.  Simplification:
    the encoding of records within a file (lengths and checksums) is not
    modelled. Used at io.py:65-82. *)
Definition filesystem (B : Type) := path -> option (list B).
(** used at io.py:65-82 *)
Definition path_eq_dec (p q : path) : {p = q} + {p <> q}.
Proof. decide equality; [apply (list_eq_dec (list_eq_dec ascii_dec))|apply bool_dec]. Defined.
(** used at io.py:65-82 *)
Definition fs_write {B} (fs : filesystem B) (p : path) (rs : list B) : filesystem B :=
  fun q => if path_eq_dec q p then Some rs else fs q.

Section Records.
Context {B M T : Type}.
(** the methods of the ProtoModel class and the wire format of its message *)
Variable to_proto : T -> res M.
Variable from_proto : M -> T.
Variable serialize : M -> B.
Variable parse : B -> res M.

(** io.py:78-79: the bytes of one record *)
Definition record_bytes (r : record B T) : res B :=
  match r with
  | RawRecord b => Ok b
  | ModelRecord t => fmap_res serialize (to_proto t)
  end.

(** io.py:77-82: what has been written when the loop ends or raises *)
Fixpoint write_loop (rs : list (record B T)) : res unit * list B :=
  match rs with
  | [] => (Ok tt, [])
  | r :: rs =>
      match record_bytes r with
      | Ok b => let '(x, bs) := write_loop rs in (x, b :: bs)
      | Raise e => (Raise e, [])
      | OutOfFuel => (OutOfFuel, [])
      end
  end.

(** io.py:65-82 write_records.  Opening the writer empties the file.
    Simplification: the directory exists and can be written to. *)
Definition write_records (fs : filesystem B) (file : path) (rs : list (record B T)) : res unit * filesystem B :=
  if is_tfrecords file then
    let '(x, bs) := write_loop rs in (x, fs_write fs file bs)
  else (Raise ValueError, fs).

(** microscope_utils.py:58-60 from_proto_string *)
Definition from_proto_string (b : B) : res T := fmap_res from_proto (parse b).

(** io.py:45-62 read_records: a generator, that is its file, whether a record
    type was given, and where it stands *)
Inductive progress := NotStarted | Reading (rest : list B) | Finished.
Record generator := mkgenerator { gen_file : path; gen_typed : bool; gen_progress : progress }.
Definition read_records (file : path) (typed : bool) : generator := mkgenerator file typed NotStarted.

(** io.py:58-62: one pass of the loop; [None] is the StopIteration *)
Definition read_item (typed : bool) (rest : list B) : res (option (record B T)) * progress :=
  match rest with
  | [] => (Ok None, Finished)
  | b :: rest =>
      if typed then
        match from_proto_string b with
        | Ok t => (Ok (Some (ModelRecord t)), Reading rest)
        | Raise e => (Raise e, Finished)
        | OutOfFuel => (OutOfFuel, Finished)
        end
      else (Ok (Some (RawRecord b)), Reading rest)
  end.

(** next(generator).  Simplification: the whole file is read when the
    iteration starts; tensorflow's NotFoundError is FileNotFoundError here.
    Used at io.py:45-62. *)
Definition read_next (fs : filesystem B) (g : generator) : res (option (record B T)) * generator :=
  let '(x, p) :=
    match gen_progress g with
    | NotStarted =>
        if is_tfrecords (gen_file g) then
          match fs (gen_file g) with
          | Some rest => read_item (gen_typed g) rest
          | None => (Raise FileNotFoundError, Finished)
          end
        else (Raise ValueError, Finished)
    | Reading rest => read_item (gen_typed g) rest
    | Finished => (Ok None, Finished)
    end in
  (x, mkgenerator (gen_file g) (gen_typed g) p).

End Records.
Arguments NotStarted {B}.
Arguments Reading {B}.
Arguments Finished {B}.
Arguments mkgenerator {B}.
Arguments gen_file {B}.
Arguments gen_typed {B}.
Arguments gen_progress {B}.
Arguments read_records {B}.
