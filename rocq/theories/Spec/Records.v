(** Vocabulary for record files. *)
From Coq Require Import List Ascii String.
From Verif Require Import Base.Prelude Model.Io.
Import ListNotations.
Local Open Scope list_scope.

(** a record file: the last component of the path is something, followed by
    ".tfrecords" *)
Definition record_file (p : path) : Prop :=
  exists directories stem, path_components p = directories ++ [stem ++ list_ascii_of_string ".tfrecords"] /\ stem <> [].

Section Records.
Context {B M T : Type}.
Variable to_proto : T -> res M.
Variable from_proto : M -> T.
Variable serialize : M -> B.
Variable parse : B -> res M.

(** iterating over a generator until it stops gives these items *)
Inductive yields (fs : filesystem B) : @generator B -> list (record B T) -> Prop :=
| yields_nil g g' : read_next from_proto parse fs g = (Ok None, g') -> yields fs g []
| yields_cons g x g' l : read_next from_proto parse fs g = (Ok (Some x), g') -> yields fs g' l -> yields fs g (x :: l).

(** protocol buffers: parsing undoes serialising *)
Definition wire_format : Prop := forall m, parse (serialize m) = Ok m.

Definition bytes_of (r : record B T) (b : B) : Prop :=
  match r with
  | RawRecord b' => b = b'
  | ModelRecord t => exists m, to_proto t = Ok m /\ b = serialize m
  end.

End Records.
