(** What it means that an observation is one that a spec describes. *)
From Coq Require Import String Reals ZArith List Bool Arith.
From Verif Require Import Base.Prelude Base.Rounding Model.MicroscopeUtils Model.Registry Model.EnvSpecs.
Import ListNotations.
Local Open Scope list_scope.
Local Open Scope string_scope.
Open Scope R_scope.

(** every entry is a 32 bit float *)
Definition float32s (x : list R) : Prop := forall y, In y x -> f32 y = y.

(** a picture with the given numbers of rows and columns, and one channel *)
Definition pictures_of (rows columns : nat) (i : image) : Prop :=
  length i = rows /\ Forall (fun row => length row = columns /\ float32s row) i.

Definition conforms (spec : observation_spec) (x : features) : Prop :=
  match x with
  | Vector v => spec = ArraySpec [length v] /\ float32s v
  | Picture i d => exists rows columns,
      spec = DictSpec [("image", [rows; columns; 1]%nat); ("goal_delta_angstroms", [length d])] /\
      pictures_of rows columns i /\ float32s d
  end.

(** cv2.resize(image, (128, 128)) and the conversion to 32 bit floats *)
Definition resizes (resize : image -> image) : Prop := forall i, pictures_of 128 128 (resize i).

(** the configuration an environment was made of, under its wrappers *)
Inductive made_of (c : adapters_config) : wrapped_config -> Prop :=
| made_bare : made_of c (Bare c)
| made_wrap w : made_of c w -> made_of c (Wrap w)
| made_limit n w : made_of c w -> made_of c (LimitSteps n w).

(** the exposures of a configuration are within these microseconds *)
Definition dwells_within (least most : Z) (c : adapters_config) : Prop :=
  match c with
  | Relative lo hi _ | MaterialFrame lo hi _ | FromPixels lo hi => (least <= lo /\ lo <= hi /\ hi <= most)%Z
  | DirectFromPixels => True
  end.

(** whether agents are shown pictures *)
Definition pictures_shown (c : adapters_config) : Prop :=
  match c with
  | Relative _ _ _ | MaterialFrame _ _ _ => False
  | FromPixels _ _ | DirectFromPixels => True
  end.
