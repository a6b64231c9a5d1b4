(** Gaussian mixture rate functions: drawing a new one, writing it to a
    directory and reading it back (graphene.py:392-445). *)
From Coq Require Import Reals List String.
From Verif Require Import Base.Prelude Model.Graphene Model.Downloads Model.ModelTraining.
Import ListNotations.
Local Open Scope string_scope.
Local Open Scope list_scope.
Local Open Scope R_scope.

(** * Sampling *)

(** rng.uniform(low, high) of the next draw [u] in [0, 1) of the generator.
    Simplification: exact arithmetic, the result does not round to high.
    Used at graphene.py:427-445. *)
Definition rng_uniform (low high u : R) : R := low + (high - low) * u.

(** rng.uniform(low, high, size=(n,)) when [k] draws were used before.
    Used at graphene.py:427-445. *)
Definition rng_uniforms (draws : nat -> R) (k n : nat) (low high : R) : list R :=
  map (fun i => rng_uniform low high (draws (k + i)%nat)) (seq 0 n).
(** rng.uniform(low, high, size=(n, 2)), row by row. Used at graphene.py:427-445. *)
Definition rng_uniform_pairs (draws : nat -> R) (k n : nat) (low high : R) : list (R * R) :=
  map (fun i => (rng_uniform low high (draws (k + 2 * i)%nat), rng_uniform low high (draws (k + 2 * i + 1)%nat)))
    (seq 0 n).

(** graphene.py:279-286: the object with its arrays; component i is made of the
    entries i of the arrays *)
Definition of_arrays (max_rate : R) (weights locs : list R) (variances : list (R * R)) : gmm :=
  mkgmm max_rate (map (fun wlv => mkmixture (fst (fst wlv)) (snd (fst wlv)) (snd wlv))
    (combine (combine weights locs) variances)).

(** graphene.py:427-445 sample_new: [poisson] is the result of rng.poisson(2.0),
    [draws] are the draws after it.  [None]: every weight is 0/0, not a number. *)
Definition sample_new (poisson : nat) (draws : nat -> R) : option gmm :=
  let num_mixtures := (poisson + 1)%nat in
  let max_rate := rng_uniform (1 / 100) 1 (draws 0%nat) in
  let weights := rng_uniforms draws 1 num_mixtures 0 10 in
  let locs := rng_uniforms draws (1 + num_mixtures) num_mixtures (-2) 3 in
  let variances := rng_uniform_pairs draws (1 + 2 * num_mixtures) num_mixtures (1 / 10) 5 in
  if Reqb (rsum weights) 0 then None
  else Some (of_arrays max_rate (map (fun w => w / rsum weights) weights) locs variances).

(** * Files *)

(** what a msgpack bundle holds here: text, a number, an array of numbers, an
    array of pairs. Used at graphene.py:279-286. *)
Inductive value := Text (s : string) | Number (x : R) | Vector (l : list R) | Pairs (l : list (R * R)).
(** used at graphene.py:401-407 *)
Definition bundle := list (string * value).

(** graphene.py:279-286: the fields as they were given to the constructor, which
    does not look at them *)
Record fields := mkfields { f_max_rate : value; f_weights : value; f_locs : value; f_variances : value }.
Definition fields_of (m : gmm) : fields :=
  mkfields (Number (gmm_max_rate m)) (Vector (map mix_weight (gmm_components m)))
    (Vector (map mix_loc (gmm_components m))) (Pairs (map mix_var (gmm_components m))).

(** graphene.py:401-407 *)
Definition to_bundle (f : fields) : bundle :=
  [("sem_ver", Text "1.0.0"); ("max_rate", f_max_rate f); ("mixture_weights", f_weights f);
   ("loc_distances", f_locs f); ("variances", f_variances f)].

(** bundle[key] *)
Definition entry (b : bundle) (key : string) : res value :=
  match lookup_key key b with Some v => Ok v | None => Raise KeyError end.
(** graphene.py:423-428 *)
Definition of_bundle (b : bundle) : res fields :=
  bind (entry b "max_rate") (fun mr =>
  bind (entry b "mixture_weights") (fun ws =>
  bind (entry b "loc_distances") (fun ls =>
  bind (entry b "variances") (fun vs => Ok (mkfields mr ws ls vs))))).

Section Files.
Context {Byte : Type}.
(** msgpack.packb and msgpack.unpackb with msgpack_numpy, external *)
Variable pack : bundle -> list Byte.
Variable unpack : list Byte -> res bundle.
(** the pieces in which the operating system writes, external *)
Variable pieces : list Byte -> list (list Byte).

Definition parameter_file : string := "gmm_parameters.mpk".
(** graphene.py:392-409 serialize_to_directory: what is written to the disk, in
    order.  write_bytes empties the file first.  Simplification: no ancestor of
    the directory is a file. *)
Definition serialize (dir : name_path) (f : fields) : list write :=
  mkdirs dir ++ retrieve (dir ++ [parameter_file]) (pieces (pack (to_bundle f)), None).

(** graphene.py:411-427 deserialize_from_directory *)
Definition deserialize (dir : name_path) (d : disk) : res fields :=
  match d_file d (dir ++ [parameter_file]) with
  | None => Raise FileNotFoundError
  | Some bytes => bind (unpack bytes) of_bundle
  end.
End Files.
