(** putting_dune/alignment.py: point-cloud alignment and merging *)
From Coq Require Import Reals ZArith List Bool Arith.
From Flocq Require Import Core.
From Verif Require Import Base.Prelude Base.Random Model.Constants Model.Geometry Model.MicroscopeUtils.
Import ListNotations.
Open Scope R_scope.
Open Scope res_scope.

(** * numpy arrays that may hold NaN

    A row of an (n, 2) array: [None] is a row of NaNs (the code below only
    makes rows that are NaN in both columns). *)
(** used at alignment.py:58-82 *)
Definition vec := option pt.
(** used at alignment.py:131-146 *)
Definition vadd (a b : vec) : vec :=
  match a, b with Some p, Some q => Some (padd p q) | _, _ => None end.
(** np.linalg.norm(a - b); [None] is NaN. Used at alignment.py:58-82. *)
Definition vdist (a b : vec) : option R :=
  match a, b with Some p, Some q => Some (pdist p q) | _, _ => None end.
(** x < bound; a comparison with NaN is False. Used at alignment.py:736-784. *)
Definition nan_ltb (x : option R) (bound : R) : bool :=
  match x with Some x => Rltb x bound | None => false end.
(** an upper limit on distances: [None] is np.inf. Used at alignment.py:58-82. *)
Definition below (x : option R) (bound : option R) : bool :=
  match x, bound with
  | Some x, Some b => Rltb x b
  | Some _, None => true
  | None, _ => false
  end.
(** np.argmin: the first NaN if there is one, else the first minimum; [None]:
    ValueError on an empty sequence. Used at alignment.py:58-82. *)
Fixpoint first_nan (i : nat) (l : list (option R)) : option nat :=
  match l with
  | [] => None
  | None :: _ => Some i
  | Some _ :: l => first_nan (S i) l
  end.
(** used at alignment.py:58-82 *)
Definition nan_argmin (l : list (option R)) : option nat :=
  match first_nan 0 l with
  | Some i => Some i
  | None => argmin (map (fun x => match x with Some x => x | None => 0 end) l)
  end.
(** the rows of an array without NaNs. Used at alignment.py:860-891. *)
Fixpoint finite_rows (l : list vec) : option (list pt) :=
  match l with
  | [] => Some []
  | Some p :: l => option_map (cons p) (finite_rows l)
  | None :: _ => None
  end.

(** np.sort of reals. Used at alignment.py:38-55. *)
Fixpoint rinsert (x : R) (l : list R) : list R :=
  match l with
  | [] => [x]
  | y :: l' => if Rleb x y then x :: l else y :: rinsert x l'
  end.
(** used at alignment.py:38-55 *)
Definition rsort (l : list R) : list R := fold_right rinsert [] l.
(** used at alignment.py:38-55 *)
Definition rmean (l : list R) : R := rsum l / INR (length l).

(** np.argsort as an oracle: everything but the order of equal values is fixed.
    Used at alignment.py:141-144 and data_utils.py:389-432. *)
Definition argsort_fn := list R -> list nat.
(** used at alignment.py:141-144 *)
Record argsort_ok (asort : argsort_fn) : Prop := {
  asort_indices : forall l i, In i (asort l) <-> (i < length l)%nat;
  asort_nodup : forall l, NoDup (asort l);
  asort_sorted : forall l a b i j, (a < b)%nat ->
    nth_error (asort l) a = Some i -> nth_error (asort l) b = Some j -> nth i l 0 <= nth j l 0
}.

(** * Scale *)

(** scipy.stats.trim_mean(l, 0.25); [None] is NaN (no elements).
    int(0.25 * n) is n / 4 rounded down. *)
Definition trim_mean_quarter (l : list R) : option R :=
  let low := (length l / 4)%nat in
  let up := (length l - low)%nat in
  let kept := skipn low (firstn up (rsort l)) in
  match kept with [] => None | _ => Some (rmean kept) end.
(** alignment.py:38-55 get_graphene_scale_factor *)
Definition get_graphene_scale_factor (coordinates : list pt) : option R :=
  let distances := map (fun p => rsort (map (pdist p) coordinates)) coordinates in
  let neighbor_distances := concat (map (fun row => firstn 3 (skipn 1 row)) distances) in
  option_map (fun s => s / CARBON_BOND_DISTANCE_ANGSTROMS) (trim_mean_quarter neighbor_distances).

(** * Alignment *)

(** alignment.py:58-82 get_offsets: for every left row the difference to the
    nearest right row, if it is near enough *)
Definition offset_to (right_coords : list vec) (mask_above : option R) (l : vec) : list pt :=
  match nan_argmin (map (vdist l) right_coords) with
  | None => []
  | Some j =>
      match nth j right_coords None, l with
      | Some r, Some p => if below (vdist l (Some r)) mask_above then [psub r p] else []
      | _, _ => []
      end
  end.
Definition get_offsets (left_coords right_coords : list vec) (mask_above : option R) : res (list pt) :=
  match right_coords with
  | [] => Raise ValueError
  | _ => Ok (flat_map (offset_to right_coords mask_above) left_coords)
  end.

(** alignment.py:125-126: the classes of the new coordinates.
    Simplification: Python does not fix the order of a set; here every value
    comes at its last occurrence. *)
Definition classes_of (l : list Z) : list Z := nodup Z.eq_dec l.
Definition class_mask (c : Z) (classes : list Z) : list bool := map (fun z => Z.eqb z c) classes.

(** np.linspace(noise_scale, 0, num=n)[i]. Used at alignment.py:85-153. *)
Definition noise_scale_at (noise_scale : R) (n i : nat) : R :=
  if (n =? 1)%nat then noise_scale else noise_scale - INR i * (noise_scale / INR (n - 1)).

Section AlignLatest.
Context {G : Type}.
Variable s : sampler G.
Variable asort : argsort_fn.

(** alignment.py:130: np.random.normal(size=(2,)) * noise_scale *)
Definition draw_noise (scale : R) (g : G) : pt * G :=
  if Reqb scale 0 then (pzero, g)
  else
    let '(x, g) := s_normal s 1 g in
    let '(y, g) := s_normal s 1 g in
    (pscale scale (mkpt x y), g).

(** alignment.py:141-144: keep the int((1 - trim) * n) shortest *)
Definition trim_offsets (trim : R) (offsets : list pt) : list pt :=
  if Rltb 0 trim then
    let sorted := asort (map pnorm offsets) in
    let k := Ztrunc ((1 - trim) * INR (length offsets)) in
    (* l[:k] with a negative k leaves out the last -k *)
    let k := if (k <? 0)%Z then (length offsets - Z.to_nat (- k))%nat else Z.to_nat k in
    map (fun i => nth i offsets pzero) (firstn k sorted)
  else offsets.

(** a.mean(axis=0); of an empty array it is NaN. Used at alignment.py:131-146. *)
Definition vmean (l : list pt) : vec := match l with [] => None | _ => Some (pmean l) end.

(** alignment.py:131-146: the mean offset of one iteration.  A boolean mask of
    the wrong length is an IndexError. *)
Definition mean_offset (new_coordinates : list pt) (reference_coordinates : list vec)
  (new_classes reference_classes : list Z) (mask_above : option R) (trim : R) (drift : vec) (noise : pt) : res vec :=
  let current := map (fun p => vadd (vadd (Some p) drift) (Some noise)) new_coordinates in
  match classes_of new_classes with
  | [] => Raise ValueError                     (* np.concatenate of nothing *)
  | cs =>
      if negb (length new_classes =? length new_coordinates)%nat then Raise IndexError
      else if negb (length reference_classes =? length reference_coordinates)%nat then Raise IndexError
      else
        offsets <- map_res (fun c =>
          get_offsets (mask_select (class_mask c new_classes) current)
                      (mask_select (class_mask c reference_classes) reference_coordinates) mask_above) cs ;;
        Ok (vmean (trim_offsets trim (concat offsets)))
  end.

(** alignment.py:148-151: the clipped drift, and whether it is a new array.
    Simplification: with a negative max_shift a drift of zero would become NaN. *)
Definition clip_drift (max_shift : R) (drift : vec) : vec * bool :=
  match drift with
  | None => (None, false)                      (* NaN > max_shift is False *)
  | Some d =>
      if Rltb max_shift (pnorm d) then (Some (pscale (/ pnorm d) (pscale max_shift d)), true)
      else (Some d, false)
  end.

(** What a call of align_latest does: its result or exception; whether the
    array it returns is the caller's init_shift; the content of that array
    afterwards; the global generator. Used at alignment.py:128-152. *)
Record aligned := mkaligned {
  al_result : res vec;
  al_shared : bool;
  al_init : vec;
  al_rng : G
}.

Section Loop.
Variable new_coordinates : list pt.
Variable reference_coordinates : list vec.
Variables new_classes reference_classes : list Z.
Variable max_shift : R.
Variable mask_above : option R.
Variable trim : R.

(** alignment.py:128-152: the loop.  `cumulative_drift += ...` writes into the
    caller's array as long as it is that array ([shared]). *)
Fixpoint align_loop (scales : list R) (drift : vec) (shared : bool) (init : vec) (g : G) : aligned :=
  match scales with
  | [] => mkaligned (Ok drift) shared init g
  | scale :: scales =>
      let '(noise, g) := draw_noise scale g in
      match mean_offset new_coordinates reference_coordinates new_classes reference_classes mask_above trim drift noise with
      | Raise e => mkaligned (Raise e) shared init g
      | OutOfFuel => mkaligned OutOfFuel shared init g
      | Ok offset =>
          let drift := vadd drift (vadd (Some noise) offset) in
          let init := if shared then drift else init in
          let '(drift, fresh) := clip_drift max_shift drift in
          align_loop scales drift (shared && negb fresh) init g
      end
  end.
End Loop.

(** alignment.py:85-153 align_latest, given the content of the array passed as
    init_shift (the default is one array shared by all calls), or [None] *)
Definition align_latest (new_coordinates : list pt) (reference_coordinates : list vec)
  (new_classes reference_classes : list Z) (iterations : nat) (noise_scale max_shift : R)
  (mask_above : option R) (trim : R) (init_shift : option vec) (g : G) : aligned :=
  let scales := map (noise_scale_at noise_scale iterations) (seq 0 iterations) in
  match init_shift with
  | None => align_loop new_coordinates reference_coordinates new_classes reference_classes max_shift mask_above trim
              scales (Some pzero) false None g
  | Some init => align_loop new_coordinates reference_coordinates new_classes reference_classes max_shift mask_above trim
              scales init true init g
  end.
(** the default value of init_shift when the module is loaded *)
Definition default_init_shift : vec := Some pzero.

End AlignLatest.
Arguments mkaligned {G}.
Arguments al_result {G}.
Arguments al_shared {G}.
Arguments al_init {G}.
Arguments al_rng {G}.

(** * Merging by cliques *)

(** scipy.spatial.cKDTree(coordinates).query_pairs(r): index pairs (i, j),
    i < j, with distance at most r. Used at alignment.py:181-200. *)
Definition query_pairs (coordinates : list pt) (r : R) : list (nat * nat) :=
  flat_map (fun i =>
    flat_map (fun j =>
      if Rleb (pdist (nth i coordinates pzero) (nth j coordinates pzero)) r then [(i, j)] else [])
      (seq (S i) (length coordinates - S i)))
    (seq 0 (length coordinates)).

(** networkx.find_cliques of the graph with nodes 0..n-1 and these edges, as
    an oracle: it enumerates the maximal cliques, each once, in some order.
    Used at alignment.py:181-200. *)
Definition cliques_fn := nat -> list (nat * nat) -> list (list nat).
(** used at alignment.py:181-200 *)
Definition linked (edges : list (nat * nat)) (i j : nat) : Prop := In (i, j) edges \/ In (j, i) edges.
(** used at alignment.py:181-200 *)
Definition clique (n : nat) (edges : list (nat * nat)) (c : list nat) : Prop :=
  NoDup c /\ (forall i, In i c -> (i < n)%nat) /\ forall i j, In i c -> In j c -> i <> j -> linked edges i j.
(** used at alignment.py:181-200 *)
Definition maximal_clique (n : nat) (edges : list (nat * nat)) (c : list nat) : Prop :=
  clique n edges c /\ c <> [] /\ forall k, (k < n)%nat -> ~ In k c -> exists i, In i c /\ ~ linked edges i k.
(** used at alignment.py:181-200 *)
Definition same_members (c c' : list nat) : Prop := forall i : nat, In i c <-> In i c'.
(** used at alignment.py:181-200 *)
Record cliques_ok (find : cliques_fn) : Prop := {
  cliques_sound : forall n edges c, In c (find n edges) -> maximal_clique n edges c;
  cliques_complete : forall n edges c, maximal_clique n edges c -> exists c', In c' (find n edges) /\ same_members c c';
  cliques_once : forall n edges a b c c', (a < b)%nat -> nth_error (find n edges) a = Some c ->
    nth_error (find n edges) b = Some c' -> ~ same_members c c'
}.

(** alignment.py:193-199: a clique becomes its weighted mean; the count is the
    sum of the counts *)
Definition merge_clique (coordinates : list pt) (counts : list R) (c : list nat) : pt :=
  psum (map (fun i => pscale (nth i counts 0 / rsum (map (fun i => nth i counts 0) c)) (nth i coordinates pzero)) c).
Definition count_clique (counts : list R) (c : list nat) : R := rsum (map (fun i => nth i counts 0) c).

(** alignment.py:181-200 the loop *)
Fixpoint clique_loop (find : cliques_fn) (min_distance : R) (max_iterations : nat)
  (coordinates : list pt) (counts : list R) : list pt * list R :=
  match max_iterations with
  | O => (coordinates, counts)
  | S max_iterations =>
      let close := query_pairs coordinates min_distance in
      match close with
      | [] => (coordinates, counts)
      | _ =>
          let cliques := find (length coordinates) close in
          clique_loop find min_distance max_iterations
            (map (merge_clique coordinates counts) cliques) (map (count_clique counts) cliques)
      end
  end.
(** alignment.py:156-200 clique_merge.  Simplification: given counts have one
    entry per coordinate. *)
Definition clique_merge (find : cliques_fn) (coordinates : list pt) (min_distance : R) (max_iterations : nat)
  (counts : option (list R)) : list pt * list R :=
  clique_loop find min_distance max_iterations coordinates
    (match counts with Some c => c | None => repeat 1 (length coordinates) end).

(** * Atomic numbers *)

(** a[idx] = values, one after the other; [None]: an index is out of range.
    Used at alignment.py:736-784. *)
Fixpoint assign {A} (a : list A) (pairs : list (nat * A)) : option (list A) :=
  match pairs with
  | [] => Some a
  | (i, v) :: pairs => if (i <? length a)%nat then assign (upd a i v) pairs else None
  end.

(** alignment.py:736-784 propagate_atomic_numbers.  The array passed as
    new_atomic_numbers is written to: its content afterwards is the result. *)
Definition closest_pairs (original merged : list vec) (original_numbers : list Z) (threshold : R) : list (nat * Z) :=
  flat_map (fun pz =>
    match nan_argmin (map (vdist (fst pz)) merged) with
    | None => []
    | Some j => if nan_ltb (vdist (fst pz) (nth j merged None)) threshold then [(j, snd pz)] else []
    end) (combine original original_numbers).
Definition propagate_atomic_numbers (original merged : list vec) (original_numbers : list Z)
  (new_numbers : option (list Z)) (default_number : Z) (threshold : R) : res (list Z) :=
  match merged with
  | [] => Raise ValueError
  | _ =>
      if negb (length original_numbers =? length original)%nat then Raise IndexError
      else
        let start := match new_numbers with Some l => l | None => repeat default_number (length merged) end in
        match assign start (closest_pairs original merged original_numbers threshold) with
        | Some l => Ok l
        | None => Raise IndexError
        end
  end.

(** * Merging by proximity

    Arrays live in a heap, because naive_merge writes into one of its
    arguments and may return it. *)
(** used at alignment.py:811-818 *)
Definition heap := list (list vec).
(** used at alignment.py:807-824 *)
Definition array (h : heap) (r : nat) : list vec := nth r h [].
(** used at alignment.py:811-818 *)
Definition row (h : heap) (r i : nat) : vec := nth i (array h r) None.
(** used at alignment.py:811-818 *)
Definition set_row (h : heap) (r i : nat) (v : vec) : heap := upd h r (upd (array h r) i v).
(** used at alignment.py:807-824 *)
Definition alloc (h : heap) (a : list vec) : nat * heap := (length h, h ++ [a]).

(** alignment.py:813-815 (positions[target] * counts[target] + m[current]) / (counts[target] + 1) *)
Definition weighted (p : vec) (count : nat) (q : vec) : vec :=
  match p, q with
  | Some p, Some q => Some (pscale (/ (INR count + 1)) (padd (pscale (INR count) p) q))
  | _, _ => None
  end.

(** alignment.py:809-810: the nearest position of every row of m and its distance *)
Definition closest_rows (positions m : list vec) : list (nat * option R) :=
  map (fun q =>
    match nan_argmin (map (fun p => vdist q p) positions) with
    | Some j => (j, vdist q (nth j positions None))
    | None => (0%nat, None)
    end) m.

(** alignment.py:811-818: rows are read when they are merged.  [new] are the
    indices of the rows that are not merged. *)
Fixpoint merge_rows (cutoff : R) (pos m current : nat) (closest : list (nat * option R))
  (h : heap) (counts : list nat) (new : list nat) : heap * list nat * list nat :=
  match closest with
  | [] => (h, counts, new)
  | (target, d) :: closest =>
      if nan_ltb d cutoff then
        merge_rows cutoff pos m (S current) closest
          (set_row h pos target (weighted (row h pos target) (nth target counts 0%nat) (row h m current)))
          (upd counts target (S (nth target counts 0%nat))) new
      else merge_rows cutoff pos m (S current) closest h counts (new ++ [current])
  end.

(** alignment.py:807-824: the loop over the remaining arrays *)
Fixpoint merge_arrays (cutoff : R) (pos : nat) (ms : list nat) (h : heap) (counts : list nat) : nat * list nat * heap :=
  match ms with
  | [] => (pos, counts, h)
  | m :: ms =>
      let '(h, counts, new) := merge_rows cutoff pos m 0 (closest_rows (array h pos) (array h m)) h counts [] in
      match new with
      | [] => merge_arrays cutoff pos ms h counts
      | _ =>
          let '(pos, h) := alloc h (array h pos ++ map (row h m) new) in
          merge_arrays cutoff pos ms h (counts ++ repeat 1%nat (length new))
      end
  end.

(** alignment.py:787-826 naive_merge: the merged array, the counts and the heap
    afterwards; IndexError if all arrays are empty *)
Definition naive_merge (cutoff : R) (coordinates : list nat) (h : heap) : res (nat * list nat) * heap :=
  match filter (fun r => negb (length (array h r) =? 0)%nat) coordinates with
  | [] => (Raise IndexError, h)
  | pos :: ms =>
      let '(pos, counts, h) := merge_arrays cutoff pos ms h (repeat 1%nat (length (array h pos))) in
      (Ok (pos, counts), h)
  end.

(** * Lattice types *)

(** alignment.py:838, 872, 910: coordinates relative to their mean *)
Definition centred (grid : list pt) : list pt := map (fun p => psub p (pmean grid)) grid.
(** alignment.py:874-877, 912-915: distances, plus 1000 on the diagonal *)
Definition distance_row (diagonal : R) (grid : list pt) (i : nat) : list R :=
  map (fun j => pdist (nth j grid pzero) (nth i grid pzero) + (if (i =? j)%nat then diagonal else 0))
    (seq 0 (length grid)).

(** alignment.py:881-887: angles to three of the other atoms *)
Definition angles_to (grid : list pt) (i : nat) (neighbors : list nat) : list R :=
  get_angles (map (fun j => psub (nth j grid pzero) (nth i grid pzero)) neighbors).

(** sklearn.cluster.KMeans(2): [km_label] labels a row of angles; a fit is
    made for rows of a certain length. Used at alignment.py:829-857. *)
Record clusterer := mkclusterer { km_length : nat; km_label : list R -> Z }.
(** predict raises ValueError for rows of another length, or NaNs.
    Used at alignment.py:860-891. *)
Definition predict (c : clusterer) (rows : list (list R)) : res (list Z) :=
  if forallb (fun row => (length row =? km_length c)%nat) rows then Ok (map (km_label c) rows)
  else Raise ValueError.

Section Lattice.
Context {G : Type}.
Variable asort : argsort_fn.
(** KMeans(2).fit, with the global generator *)
Variable kmeans : list (list R) -> G -> (list R -> Z) * G.

(** alignment.py:829-857 get_lattice_clusterer.  Fewer than two atoms:
    ValueError (nothing to stack, or rows without angles). *)
Definition get_lattice_clusterer (grid : list pt) (g : G) : res clusterer * G :=
  let grid := centred grid in
  if (length grid <? 2)%nat then (Raise ValueError, g)
  else
    let rows := map (fun i => rsort (angles_to grid i (firstn 3 (skipn 1 (asort (distance_row 0 grid i))))))
                    (seq 0 (length grid)) in
    let '(label, g) := kmeans rows g in
    (Ok (mkclusterer (Nat.min 3 (length grid - 1)) label), g).

(** alignment.py:916-919: who is whose neighbour *)
Definition neighbour_bound (grid : list pt) : R :=
  rmean (concat (map (fun i => firstn 3 (rsort (distance_row 1000 grid i))) (seq 0 (length grid)))) * (11 / 10).
Definition neighbour_mask (grid : list pt) : list (list bool) :=
  map (fun i => map (fun d => Rltb d (neighbour_bound grid)) (distance_row 1000 grid i)) (seq 0 (length grid)).

Definition count_true (l : list bool) : nat := length (filter (fun b => b) l).
Definition filtered (mask_row classified : list bool) : list bool :=
  map (fun bc => fst bc && snd bc) (combine mask_row classified).

(** alignment.py:934-938: 1 - (sum of the neighbours' classes) / (their number),
    stored into an integer array, which rounds towards zero.  For classes 0
    and 1 that is the quotient below. *)
Definition new_class (frow : list bool) (classes : list Z) : Z :=
  let n := Z.of_nat (count_true frow) in
  Z.quot (n - zsum (mask_select frow classes)) n.

(** alignment.py:926-939: one round; [None]: no frontier *)
Definition propagate_round (mask : list (list bool)) (classes : list Z) (classified : list bool)
  : option (list Z * list bool) :=
  let rows := map (fun r => filtered r classified) mask in
  let frontier := map (fun rc => negb (snd rc) && (1 <=? count_true (fst rc))%nat) (combine rows classified) in
  if (count_true frontier =? 0)%nat then None
  else Some (map (fun x : Z * bool * list bool => if snd (fst x) then new_class (snd x) classes else fst (fst x))
                 (combine (combine classes frontier) rows),
             map (fun x => fst x || snd x) (combine classified frontier)).
Fixpoint propagate_loop (fuel : nat) (mask : list (list bool)) (classes : list Z) (classified : list bool) : res (list Z) :=
  match fuel with
  | O => OutOfFuel
  | S fuel =>
      match propagate_round mask classes classified with
      | None => Ok classes
      | Some (classes, classified) => propagate_loop fuel mask classes classified
      end
  end.
(** alignment.py:894-939 propagate_graphene_classes *)
Definition propagate_graphene_classes (fuel : nat) (classes : list Z) (grid : list pt) : res (list Z) :=
  let grid := centred grid in
  let mask := neighbour_mask grid in
  propagate_loop fuel mask classes (map (fun r => (3 <=? count_true r)%nat) mask).

(** alignment.py:860-891 classify_lattice_types: the nearest three in order of
    distance; the angles are not sorted here.  [None]: the classifier is None.
    The loop of propagate_graphene_classes gets as many rounds as it needs. *)
Definition classify_lattice_types (coordinates : list vec) (clusters : option clusterer) : res (list Z) :=
  if (length coordinates <? 3)%nat then Raise AssertionError
  else
    match clusters, finite_rows coordinates with
    | None, _ => Raise AttributeError
    | Some _, None => Raise ValueError
    | Some c, Some grid =>
        let grid := centred grid in
        let rows := map (fun i => angles_to grid i (firstn 3 (asort (distance_row 1000 grid i)))) (seq 0 (length grid)) in
        classes <- predict c rows ;;
        propagate_graphene_classes (S (length grid)) classes grid
    end.

End Lattice.

(** * IterativeAlignmentFiltering *)

(** alignment.py:609-629 the parameters, with their defaults *)
Record filter_params := mkfilter_params {
  fp_history_length : nat;
  fp_alignment_iterations : nat;
  fp_noise_scale : R;
  fp_max_shift : R;
  fp_merge_cutoff : R;
  fp_accumulate_merged : bool;
  fp_clique_merging : bool;
  fp_trim : R
}.
Definition default_filter_params : filter_params :=
  mkfilter_params 10 20 0 2 (11 / 10) false false 0.

(** alignment.py:631-635 the state (without [step], which nothing reads):
    references to arrays of recent positions *)
Record filter_state := mkfilter_state {
  fs_observations : list nat;
  fs_classes : list (list Z);
  fs_classifier : option clusterer
}.
(** alignment.py:631-635 reset *)
Definition filter_reset : filter_state := mkfilter_state [] [] None.
(** alignment.py:637-649 apply_shift: new arrays *)
Definition shift_array (a : list vec) (shift : pt) : list vec := map (fun v => vadd v (Some shift)) a.
Fixpoint alloc_all (arrays : list (list vec)) (h : heap) : list nat * heap :=
  match arrays with
  | [] => ([], h)
  | a :: arrays =>
      let '(r, h) := alloc h a in
      let '(rs, h) := alloc_all arrays h in
      (r :: rs, h)
  end.
Definition filter_apply_shift (shift : pt) (st : filter_state) (h : heap) : filter_state * heap :=
  let '(rs, h) := alloc_all (map (fun r => shift_array (array h r) shift) (fs_observations st)) h in
  (mkfilter_state rs (fs_classes st) (fs_classifier st), h).

(** a grid whose positions are in the heap. Used at alignment.py:670-679. *)
Record grid_ref := mkgrid_ref { gf_positions : nat; gf_numbers : list Z }.

Section Filter.
Context {G : Type}.
Variable s : sampler G.
Variable asort : argsort_fn.
Variable find : cliques_fn.
Variable kmeans : list (list R) -> G -> (list R -> Z) * G.
Variable fp : filter_params.

(** used at alignment.py:670-679 *)
Definition filter_result : Type := (res (grid_ref * vec) * filter_state * heap * G)%type.

(** alignment.py:670-679: the first observation.  The array of the caller is
    kept, even if classifying it raises. *)
Definition filter_first (o : grid_ref) (st : filter_state) (h : heap) (g : G) : filter_result :=
  let obs := [gf_positions o] in
  match finite_rows (array h (gf_positions o)) with
  | None => (Raise ValueError, mkfilter_state obs (fs_classes st) (fs_classifier st), h, g)
  | Some grid =>
      let '(rc, g) := get_lattice_clusterer asort kmeans grid g in
      match rc with
      | Raise e => (Raise e, mkfilter_state obs (fs_classes st) (fs_classifier st), h, g)
      | OutOfFuel => (OutOfFuel, mkfilter_state obs (fs_classes st) (fs_classifier st), h, g)
      | Ok c =>
          match classify_lattice_types asort (array h (gf_positions o)) (Some c) with
          | Raise e => (Raise e, mkfilter_state obs (fs_classes st) (Some c), h, g)
          | OutOfFuel => (OutOfFuel, mkfilter_state obs (fs_classes st) (Some c), h, g)
          | Ok classes => (Ok (o, Some pzero), mkfilter_state obs (fs_classes st ++ [classes]) (Some c), h, g)
          end
      end
  end.

(** alignment.py:701-708: merging; cKDTree raises ValueError for NaNs *)
Definition filter_merge (refs : list nat) (h : heap) : res nat * heap :=
  if fp_clique_merging fp then
    match finite_rows (flat_map (array h) refs) with
    | None => (Raise ValueError, h)
    | Some all =>
        let '(joined, _) := clique_merge find all (fp_merge_cutoff fp) 100 None in
        let '(r, h) := alloc h (map Some joined) in
        (Ok r, h)
    end
  else
    let '(r, h) := naive_merge (fp_merge_cutoff fp) refs h in
    (fmap_res fst r, h).

(** alignment.py:681-733: every later observation *)
Definition filter_later (o : grid_ref) (st : filter_state) (h : heap) (g : G) : filter_result :=
  match classify_lattice_types asort (array h (gf_positions o)) (fs_classifier st) with
  | Raise e => (Raise e, st, h, g)
  | OutOfFuel => (OutOfFuel, st, h, g)
  | Ok classes =>
      match finite_rows (array h (gf_positions o)), fs_classes st with
      | None, _ => (Raise ValueError, st, h, g)
      | Some _, [] => (Raise ValueError, st, h, g)       (* np.concatenate of nothing *)
      | Some new, _ =>
          let al := align_latest s asort new (flat_map (array h) (fs_observations st)) classes (concat (fs_classes st))
                      (fp_alignment_iterations fp) (fp_noise_scale fp) (fp_max_shift fp) (Some 2) (fp_trim fp)
                      (Some (Some pzero)) g in
          let g := al_rng al in
          match al_result al with
          | Raise e => (Raise e, st, h, g)
          | OutOfFuel => (OutOfFuel, st, h, g)
          | Ok drift =>
              (* new_observation.shift(drift): a new array *)
              let '(shifted, h) := alloc h (map (fun p => vadd (Some p) drift) new) in
              let '(rj, h) := filter_merge (fs_observations st ++ [shifted]) h in
              match rj with
              | Raise e => (Raise e, st, h, g)
              | OutOfFuel => (OutOfFuel, st, h, g)
              | Ok joined =>
                  let '(kept, rk) :=
                    if fp_accumulate_merged fp
                    then (joined, classify_lattice_types asort (array h joined) (fs_classifier st))
                    else (shifted, Ok classes) in
                  let obs := fs_observations st ++ [kept] in
                  match rk with
                  | Raise e => (Raise e, mkfilter_state obs (fs_classes st) (fs_classifier st), h, g)
                  | OutOfFuel => (OutOfFuel, mkfilter_state obs (fs_classes st) (fs_classifier st), h, g)
                  | Ok kept_classes =>
                      (* alignment.py:718-721: drop the oldest *)
                      let n := fp_history_length fp in
                      let cls := fs_classes st ++ [kept_classes] in
                      let cut := (length obs - n)%nat in
                      let st := mkfilter_state (skipn cut obs) (skipn cut cls) (fs_classifier st) in
                      match propagate_atomic_numbers (array h shifted) (array h joined) (gf_numbers o) None 6 (8 / 10) with
                      | Raise e => (Raise e, st, h, g)
                      | OutOfFuel => (OutOfFuel, st, h, g)
                      | Ok numbers =>
                          (Ok (mkgrid_ref joined numbers,
                               match drift with Some d => Some (pneg d) | None => None end), st, h, g)
                      end
                  end
              end
          end
      end
  end.

(** alignment.py:651-733 __call__ *)
Definition filter_call (o : grid_ref) (st : filter_state) (h : heap) (g : G) : filter_result :=
  match fs_observations st with
  | [] => filter_first o st h g
  | _ => filter_later o st h g
  end.

End Filter.
