(** Vocabulary for aligning point clouds. *)
From Coq Require Import Reals ZArith List Permutation.
From Verif Require Import Base.Prelude Base.Random Model.Alignment.
Import ListNotations.
Open Scope R_scope.

(** q is a nearest point of l to p; the first of several *)
Definition nearest_in (l : list pt) (p q : pt) : Prop :=
  exists j, nth_error l j = Some q /\
    (forall q', In q' l -> pdist p q <= pdist p q') /\
    (forall k q', (k < j)%nat -> nth_error l k = Some q' -> pdist p q < pdist p q').

(** a distance below the limit, if there is one *)
Definition within (limit : option R) (x : R) : Prop :=
  match limit with Some b => x < b | None => True end.

(** the way from p to its nearest point of l, if it is not too long *)
Definition way_to (l : list pt) (limit : option R) (p : pt) (way : list pt) : Prop :=
  exists q, nearest_in l p q /\
    ((within limit (pdist p q) /\ way = [psub q p]) \/ (~ within limit (pdist p q) /\ way = [])).

(** the points of a class *)
Definition of_class (c : Z) (ps : list pt) (classes : list Z) : list pt :=
  map fst (filter (fun pc => Z.eqb (snd pc) c) (combine ps classes)).

(** the ways of all points, shifted by d, to points of their class *)
Definition ways (new : list pt) (new_classes : list Z) (ref : list pt) (ref_classes : list Z)
  (limit : option R) (d : pt) (offsets : list pt) : Prop :=
  exists parts, offsets = concat parts /\
    Forall2 (fun pc way => way_to (of_class (snd pc) ref ref_classes) limit (padd (fst pc) d) way)
      (combine new new_classes) parts.

(** the shortest k of some vectors *)
Definition shortest (k : nat) (offsets kept : list pt) : Prop :=
  exists dropped, Permutation offsets (kept ++ dropped) /\ length kept = k /\
    forall a b, In a kept -> In b dropped -> pnorm a <= pnorm b.
(** trimming leaves (1 - trim) of them, rounded down *)
Definition trimmed (trim : R) (offsets kept : list pt) : Prop :=
  (trim <= 0 -> Permutation offsets kept) /\
  (0 < trim <= 1 -> exists k, INR k <= (1 - trim) * INR (length offsets) < INR k + 1 /\ shortest k offsets kept).

(** one iteration from drift d with some noise: the new drift before and after
    it is limited, and whether it was; a mean of nothing is NaN (None) *)
Definition iteration (new : list pt) (new_classes : list Z) (ref : list pt) (ref_classes : list Z)
  (max_shift : R) (limit : option R) (trim : R) (noise : pt) (d : vec) (d1 d2 : vec) (limited : bool) : Prop :=
  match d with
  | None => d1 = None /\ d2 = None /\ limited = false
  | Some d =>
      exists offsets kept, ways new new_classes ref ref_classes limit (padd d noise) offsets /\
        trimmed trim offsets kept /\
        ((kept = [] /\ d1 = None /\ d2 = None /\ limited = false) \/
         (kept <> [] /\
          let e := padd d (padd noise (pmean kept)) in
          d1 = Some e /\
          ((pnorm e <= max_shift /\ d2 = Some e /\ limited = false) \/
           (max_shift < pnorm e /\ d2 = Some (pscale (max_shift / pnorm e) e) /\ limited = true))))
  end.

(** the noise of an iteration *)
Definition noise_drawn {G} (s : sampler G) (scale : R) (g : G) (noise : pt) (g' : G) : Prop :=
  (scale = 0 -> noise = pzero /\ g' = g) /\
  (scale <> 0 -> exists g1, noise = mkpt (scale * fst (s_normal s 1 g)) (scale * fst (s_normal s 1 g1)) /\
     g1 = snd (s_normal s 1 g) /\ g' = snd (s_normal s 1 g1)).

(** the iterations of a call; [shared]: the drift still is the caller's array,
    whose content is [init] *)
Inductive iterations {G} (s : sampler G) new new_classes ref ref_classes max_shift limit trim
  : list R -> vec -> bool -> vec -> G -> vec -> bool -> vec -> G -> Prop :=
| iterations_done d (shared : bool) init g :
    iterations s new new_classes ref ref_classes max_shift limit trim [] d shared init g d shared init g
| iterations_more scale scales noise d d1 d2 (limited : bool) (shared : bool) init g g1 d' (shared' : bool) init' g' :
    noise_drawn s scale g noise g1 ->
    iteration new new_classes ref ref_classes max_shift limit trim noise d d1 d2 limited ->
    iterations s new new_classes ref ref_classes max_shift limit trim scales d2 (shared && negb limited)
      (if shared then d1 else init) g1 d' shared' init' g' ->
    iterations s new new_classes ref ref_classes max_shift limit trim (scale :: scales) d shared init g d' shared' init' g'.

(** noise that shrinks linearly to nothing *)
Definition annealing (noise_scale : R) (n : nat) (scales : list R) : Prop :=
  length scales = n /\
  forall i x, nth_error scales i = Some x ->
    (n = 1%nat -> x = noise_scale) /\ ((1 < n)%nat -> x = noise_scale * (1 - INR i / (INR n - 1))).

(** every new class occurs among the reference classes *)
Definition classes_known (new_classes ref_classes : list Z) : Prop :=
  forall c, In c new_classes -> In c ref_classes.
