(** What a user expects of uploaded microscope data. *)
From Coq Require Import Reals ZArith List Ascii String.
From Verif Require Import Base.Prelude Base.Rounding Model.MicroscopeUtils Model.Io Model.Upload.
Import ListNotations.
Open Scope R_scope.

(** a position in an image of this stack as a fraction of its size *)
Definition fraction (s : stack) (p : pt) : pt := mkpt (px p / INR (st_height s)) (py p / INR (st_width s)).
(** how far the stage moved with a frame, in angstroms *)
Definition moved (s : stack) (f : frame) : pt :=
  mkpt (10 * fr_fov f * px (fr_shifts f) / INR (st_height s)) (10 * fr_fov f * py (fr_shifts f) / INR (st_width s)).

(** the beam was on during this frame, at a place, for some seconds *)
Definition irradiated (f : frame) (place : pt) (seconds : R) : Prop :=
  fr_dwell f = Some seconds /\ exists rest, fr_beam f = Some place :: rest.

(** the observation made of a frame, given where its lower left corner is *)
Record observed (s : stack) (f : frame) (im : image) (corner : pt) (width : R) (o : observation) : Prop := {
  ob_image : o_image o = Some im /\ o_label_image o = None;
  ob_positions : positions (o_grid o) = map (fraction s) (fr_image f);
  ob_numbers : length (numbers (o_grid o)) = length (fr_image f);
  ob_dopants : forall i p n, nth_error (fr_image f) i = Some p -> nth_error (numbers (o_grid o)) i = Some n ->
    (n = 14%Z /\ exists d, In (Some d) (fr_dopants f) /\ pdist (fraction s p) (fraction s d) < 1 / 1000000) \/
    (n = 6%Z /\ forall d, In (Some d) (fr_dopants f) -> 1 / 1000000 <= pdist (fraction s p) (fraction s d));
  ob_fov : lower_left (o_fov o) = corner /\ upper_right (o_fov o) = mkpt (px corner + width) (py corner + width);
  ob_idle : fr_dwell f = None -> o_controls o = [] /\ o_elapsed o = 2000000%Z;
  ob_beam : forall place seconds, irradiated f place seconds ->
    (* in angstroms *)
    o_controls o = [mkcontrol (mkpt (px corner + width * px (fraction s place)) (py corner + width * py (fraction s place)))
                      (td_seconds seconds) (Some 60) (Some (1 / 10))] /\
    o_elapsed o = td_seconds (seconds + 2)
}.

(** nothing about a frame stops the conversion *)
Definition convertible (s : stack) (frames : list (nat * frame)) (t : nat) : Prop :=
  exists f, lookup_frame t frames = Ok f /\ fr_image f <> [] /\ fr_dopants f <> [] /\
    (forall seconds, fr_dwell f = Some seconds -> exists place rest, fr_beam f = Some place :: rest).
