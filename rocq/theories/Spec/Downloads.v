(** Models that are kept on disk: what an unpacked archive is, and histories of
    runs any of which may be cut. *)
From Coq Require Import List Bool String.
From Verif Require Import Base.Prelude Model.Downloads.
Import ListNotations.

Section Spec.
Context {Byte : Type}.
Notation content := (list Byte).

(** the files after an archive was unpacked over what was there before: the last
    entry of every path counts *)
Definition unpacked_over (before : name_path -> option content) (entries : list (name_path * content))
    (after : name_path -> option content) : Prop :=
  forall p,
    (exists l c r, entries = l ++ (p, c) :: r /\ ~ In p (map fst r) /\ after p = Some c) \/
    (~ In p (map fst entries) /\ after p = before p).
Definition nothing : name_path -> option content := fun _ => None.
(** the archive of a model holds files in the directory of the model only *)
Definition archive_of (name : string) (entries : list (name_path * content)) : Prop :=
  Forall (fun e => exists rest, rest <> [] /\ fst e = name :: rest) entries.
(** the disk before the first run *)
Definition new_disk : @disk Byte := mkdisk (fun _ => false) nothing.

(** a run for a model: its name, what the network does, and after how many
    writes it is cut, if it is *)
Record run := mkrun { r_name : string; r_net : @transfer Byte; r_cut : option nat }.
(** what is received is the archive of the model, if it is an archive *)
Definition honest (unzip : list Byte -> res (list (name_path * content))) (r : run) : Prop :=
  r_name r <> "tmp.zip"%string /\
  forall entries, unzip (concat (fst (r_net r))) = Ok entries -> archive_of (r_name r) entries.
(** the path of a model *)
Definition model_at (name : string) : name_path := ["model_weights"%string; name].
End Spec.

(** the disk after some runs *)
Definition after_run {Byte Net} (unzip : list Byte -> res (list (name_path * list Byte)))
    (load : (name_path -> option (list Byte)) -> res Net) (d : @disk Byte) (r : @run Byte) : @disk Byte :=
  let ws := fst (tf_agent unzip load (r_name r) (r_net r) d) in
  match r_cut r with None => do_writes d ws | Some n => cut n ws d end.
Definition after_runs {Byte Net} (unzip : list Byte -> res (list (name_path * list Byte)))
    (load : (name_path -> option (list Byte)) -> res Net) (runs : list (@run Byte)) (d : @disk Byte) : @disk Byte :=
  fold_left (after_run unzip load) runs d.
