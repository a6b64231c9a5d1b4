(** Vocabulary for drawings. *)
From Coq Require Import Reals ZArith List Bool.
From Verif Require Import Base.Prelude Model.MicroscopeUtils Model.PlottingUtils Model.Drawing Spec.Grids.
Import ListNotations.
Open Scope R_scope.

(** the points are the positions of the atoms with this number, in the order of
    the grid *)
Definition atoms_numbered (n : Z) (g : grid) (ps : list pt) : Prop :=
  exists found, selects (fun a => snd a = n) (atoms g) found /\ ps = map fst found.

(** a mark, or nothing *)
Definition marked (s : style) (size : R) (p : option pt) : list mark :=
  match p with Some p => [mkmark s size [p]] | None => [] end.

(** a drawing shows carbon as dots, silicon as red dots, then the goal as a
    green cross and the beam as a black point, where there are any, then the
    other marks *)
Definition depicts (d : drawing) (sz : sizes) (g : grid) (goal beam : option pt) (others : list mark) : Prop :=
  exists carbon silicon, atoms_numbered 6 g carbon /\ atoms_numbered 14 g silicon /\
    dr_marks d = [mkmark Dots (sz_carbon sz) carbon; mkmark RedDots (sz_silicon sz) silicon] ++
      marked GreenCross (sz_goal sz) goal ++ marked BlackPoint (sz_control sz) beam ++ others.

(** a place is within the axes *)
Definition within_axes (d : drawing) (p : pt) : Prop :=
  fst (dr_xlim d) <= px p <= snd (dr_xlim d) /\ fst (dr_ylim d) <= py p <= snd (dr_ylim d).

(** the least and the greatest number of a list *)
Definition is_least (l : list R) (x : R) : Prop := In x l /\ forall y, In y l -> x <= y.
Definition is_greatest (l : list R) (x : R) : Prop := In x l /\ forall y, In y l -> y <= x.
