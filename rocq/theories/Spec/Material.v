(** What a single-doped sheet is, how it may change, and what an exposure of
    it is, independently of the code that simulates it. *)
From Coq Require Import Reals ZArith List.
From Verif Require Import Base.Prelude Base.Rounding Base.Random Model.MicroscopeUtils
  Spec.Grids Spec.Neighbours.
Import ListNotations.
Open Scope R_scope.

(** the s-th atom is silicon (14), every other atom is carbon (6) *)
Definition single_doped (g : grid) (s : nat) : Prop :=
  wf_grid g /\ (s < length (numbers g))%nat /\
  forall i z, nth_error (numbers g) i = Some z -> (i = s /\ z = 14%Z) \/ (i <> s /\ z = 6%Z).

(** number of atoms with a given atomic number *)
Definition count_number (z : Z) (g : grid) : nat := count_occ Z.eq_dec (numbers g) z.

(** the silicon moved to one of the three nearest sites, nothing else changed *)
Definition hop (g g' : grid) : Prop :=
  positions g' = positions g /\
  exists s s' idx, single_doped g s /\ single_doped g' s' /\
    three_nearest (positions g) s idx /\ In s' idx.

(** [chain R g l]: each element of l is related to its predecessor, g first *)
Inductive chain {A} (rel : A -> A -> Prop) : A -> list A -> Prop :=
| chain_nil g : chain rel g []
| chain_cons g g' l : rel g g' -> chain rel g' l -> chain rel g (g' :: l).

(** a generator that also records the exponential scales and the choice
    probabilities it was asked for, with the values it returned *)
Inductive draw :=
| Waited (scale value : R)
| Chose (p : list R) (i : nat).

Definition recording {G} (s : sampler G) : sampler (G * list draw) := {|
  s_seed := fun z => (s_seed s z, []);
  s_uniform := fun lo hi gl =>
    let '(x, g) := s_uniform s lo hi (fst gl) in (x, (g, snd gl));
  s_exponential := fun sc gl =>
    let '(x, g) := s_exponential s sc (fst gl) in (x, (g, snd gl ++ [Waited sc x]));
  s_choice := fun n gl =>
    let '(x, g) := s_choice s n (fst gl) in (x, (g, snd gl));
  s_choice_p := fun p gl =>
    let '(x, g) := s_choice_p s p (fst gl) in (x, (g, snd gl ++ [Chose p x]));
  s_normal := fun sigma gl =>
    let '(x, g) := s_normal s sigma (fst gl) in (x, (g, snd gl))
|}.

(** the waiting time, in microseconds, made of a drawn number of seconds: at
    most an hour *)
Definition waiting (x : R) : Z := round_half_even (Rmin x 3600 * 1000000).

(** Competing exponential clocks: [clocks succ dwell t g ds ts g'] says that an
    exposure of length dwell, t microseconds of which are over, starting with
    material g, makes the draws ds, reports the transitions ts and ends with
    material g'.  [succ] gives the successors of a material with their rates. *)
Inductive clocks (succ : grid -> list (grid * R) -> Prop) (dwell : Z)
  : Z -> grid -> list draw -> list (Z * grid) -> grid -> Prop :=
| clocks_over t g : (dwell <= t)%Z -> clocks succ dwell t g [] [] g
| clocks_too_late t g rs x :
    (t < dwell)%Z -> succ g rs -> 0 < rsum (map snd rs) ->
    (dwell < t + waiting x)%Z ->
    clocks succ dwell t g [Waited (1 / rsum (map snd rs)) x] [] g
| clocks_never t g rs x : (* all rates are zero *)
    (t < dwell)%Z -> succ g rs -> rsum (map snd rs) = 0 ->
    (dwell < t + 3600000000)%Z ->
    clocks succ dwell t g [Waited 0 x] [] g
| clocks_hop t g rs x i g1 r1 ds ts g' :
    (t < dwell)%Z -> succ g rs -> 0 < rsum (map snd rs) ->
    (t + waiting x <= dwell)%Z ->
    nth_error rs i = Some (g1, r1) ->
    clocks succ dwell (t + waiting x) g1 ds ts g' ->
    clocks succ dwell t g
      (Waited (1 / rsum (map snd rs)) x
       :: Chose (map (fun r => f32 (snd r) / rsum (map snd rs)) rs) i :: ds)
      ((t + waiting x, g1)%Z :: ts) g'.
