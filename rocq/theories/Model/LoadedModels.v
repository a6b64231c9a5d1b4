(** The networks that detectors and aligners load from disk when they are first
    used: atom_detector.py:119-121, alignment.py:365-367. *)
From Coq Require Import List Bool String.
From Verif Require Import Base.Prelude Model.Downloads.
Import ListNotations.
Local Open Scope list_scope.

Section Loading.
Context {Byte Net : Type}.
(** as in Downloads.v *)
Variable unzip : list Byte -> res (list (name_path * list Byte)).
Variable load : (name_path -> option (list Byte)) -> res Net.

(** atom_detector.py:83-88 AtomDetector, alignment.py:343-345 ImageAligner: the path of
    the model, and what functools.cached_property has kept *)
Record object := mkobject { ob_path : name_path; ob_model : option Net }.
(** atom_detector.py:119-121 and alignment.py:365-367 model: the kept model, or the one
    loaded from the disk, which is kept; an exception is not kept *)
Definition model_of (o : object) (d : @disk Byte) : res Net * object :=
  match ob_model o with
  | Some n => (Ok n, o)
  | None =>
      let r := load (files_in d (ob_path o)) in
      (r, match r with Ok n => mkobject (ob_path o) (Some n) | _ => o end)
  end.

(** * Programs that make and use such objects *)

(** used at atom_detector.py:116 *)
Record world := mkworld { w_disk : @disk Byte; w_objects : list object }.
(** used at atom_detector.py:116 *)
Inductive event :=
| FromUrl (net : @transfer Byte)                                   (* AtomDetector.from_url() *)
| FromPath (archive : option (list Byte)) (reload : bool)          (* ImageAligner.from_path(path, reload=reload) *)
| Use (i : nat)                                                    (* the model of the i-th object made *)
| Elsewhere (ws : list (@write Byte)).                             (* other programs write *)
(** used at atom_detector.py:116 *)
Inductive outcome := Made (r : res nat) | Answer (r : res Net) | Silent.

Fixpoint put_object (i : nat) (o : object) (l : list object) : list object :=
  match l, i with
  | [], _ => []
  | _ :: l, O => o :: l
  | x :: l, S i => x :: put_object i o l
  end.
(** atom_detector.py:116, alignment.py:488: a new object at the path *)
Definition make (w : world) (run : list (@write Byte) * res name_path) : outcome * world :=
  let d := do_writes (w_disk w) (fst run) in
  match snd run with
  | Ok p => (Made (Ok (length (w_objects w))), mkworld d (w_objects w ++ [mkobject p None]))
  | Raise e => (Made (Raise e), mkworld d (w_objects w))
  | OutOfFuel => (Made OutOfFuel, mkworld d (w_objects w))
  end.
Definition happen (w : world) (e : event) : outcome * world :=
  match e with
  | FromUrl net => make w (detector_from_url unzip net (w_disk w))
  | FromPath archive reload => make w (aligner_from_path unzip archive reload (w_disk w))
  | Use i =>
      match nth_error (w_objects w) i with
      | None => (Silent, w)
      | Some o => let '(r, o) := model_of o (w_disk w) in (Answer r, mkworld (w_disk w) (put_object i o (w_objects w)))
      end
  | Elsewhere ws => (Silent, mkworld (do_writes (w_disk w) ws) (w_objects w))
  end.
(** the world after a history *)
Definition after (w : world) (h : list event) : world := fold_left (fun w e => snd (happen w e)) h w.
(** what comes of an event after a history *)
Definition comes (w : world) (h : list event) (e : event) : outcome := fst (happen (after w h) e).
End Loading.
Arguments object : clear implicits.
Arguments event : clear implicits.
Arguments outcome : clear implicits.
Arguments world : clear implicits.
