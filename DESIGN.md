# Design of the formal model of google/putting-dune

## 1. Shape of the development

All Coq sources are in `rocq/theories`:

| directory | contents |
|---|---|
| `Base/` | numbers, exceptions as values, lists and masks, argmin, float32 and microsecond rounding, the random generator interface |
| `Model/` | one file per Python module; every definition cites the file and lines it models; no proofs |
| `Spec/` | small specifications, written without the model's helper functions |
| `Proofs/` | lemmas |
| `Props/` | the theorems of `MANIFEST.json`, with the lemmas that only they need, `Print Assumptions` for each, and `Example`s showing that their hypotheses are satisfiable by a non-trivial case |

`properties.jsonl` and `MANIFEST.json` are generated from `tools/claims_data.py` by `tools/claims.py`.

### Modelling conventions

* **Numbers.** Coordinates, rates, rewards and probabilities are exact reals (`R` of the standard library); numpy's float64 rounding is *not* modelled. What is modelled exactly: float32 storage in protobuf `float` fields and in explicit `.astype(np.float32)` (Flocq's `round radix2 (FLT_exp (-149) 24) ZnearestE`, no overflow to infinity), `datetime.timedelta` as an integer number of microseconds (`Z`) with Python's round-half-even constructor, `int(x)`/int32 casts as truncation, `round`/`np.around` as round-half-even.
* **Division by zero** is never relied on: Coq's `x / 0` is a junk value, so theorems carry the non-zero guard, and where the Python code raises or yields NaN this is a separate branch of the model.
* **Exceptions** are values: `res A := Ok a | Raise e | OutOfFuel`. Stateful operations return the new state in *every* case, so effects before a raise are visible. `OutOfFuel` is only used for loops whose termination is not structural, and is a distinct outcome.
* **Arrays** of shape (n,2) are `list pt`; an `AtomicGrid` is a pair of lists as in the code, with `wf_grid` for equal lengths. Aliasing is modelled only where a property is about it (`align_latest`, `naive_merge`, the shared generator of the delta adapter).
* **Randomness**: a generator is an abstract state `G` with a record of sampling functions; theorems quantify over all generators, assuming only range facts (`sampler_ok`: uniform in its interval, exponential non-negative, choice in range and of positive probability).
* **External libraries** (sklearn nearest neighbours, K-means, networkx cliques, TensorFlow tensors, image synthesis, neural networks, wall clock) are parameters of the model with an explicit contract where one is needed; each contract has a proved instance, so it is satisfiable. For nearest neighbours the contract fixes everything but tie-breaking.
* **Interfaces** (`ActionAdapter`, `FeatureConstructor`, `Goal`, `RateFunction`, `Agent`) are records of functions, so environment and evaluation theorems hold for every implementation; the shipped implementations are modelled separately and plugged in.

### Findings

Where the faithful model violates what a user would expect, the theorem carries the suffix `_refuted` (an existential with a witness), and the part that does hold is proved next to it.

## 2. Trusted base

* Coq 8.16.1's kernel.
* Axioms: only those of the standard library's classical reals, as printed by `Print Assumptions` under each theorem: `ClassicalDedekindReals.sig_forall_dec`, `ClassicalDedekindReals.sig_not_dec`, `FunctionalExtensionality.functional_extensionality_dep`, and (through Flocq and a few real-analysis lemmas) `Classical_Prop.classic`. Theorems about protocols over abstract components are closed under the global context.
* The reading of the Python sources: every model definition cites its lines, and says where it simplifies.
* Flocq (float32 rounding) and std++/mathcomp are not trusted beyond the kernel: they contribute definitions and proofs, no axioms.

## 3. What is and is not modelled

See section 5 for the list by module (kept up to date as the model grows).

## 4. Plan per property
* **C01** `MicroscopeUtils`: payload sum type, conversion as in the code; direct algebra with `field`, lists by `map_map`.
* **C02** Same model; case analysis, list induction; exact error characterisation.
* **C03** Same; order reasoning with division by positive extents.
* **C04** `resize`/`zoom` with an assertion branch; `field`.
* **C05** Algebra.
* **C06** Boolean masks over both arrays; spec as a filter of atoms in order and as a membership equivalence; list induction.
* **C07** `Graphene.get_atoms_in_bounds`; reduces to C06 and C01.
* **C08** `Graphene.material_reset`; argmin lemma; update of one index.
* **C09** Invariant over lists of controls, induction on fuel inside `apply_control`; successor contract proved for both shipped rate functions.
* **C10** Transition relation `hop` in the spec; the observer callbacks form a chain; nearest-neighbour contract for the search.
* **C11** Induction on the loop with the accumulated clock.
* **C12** Fuel bound from the dwell time; divergence for every fuel for a generator with tiny draws.
* **C13** State machine with a not-yet-reset state.
* **C14** Real algebra.
* **C15** Functional specification of the successor list; error branches.
* **C16** Gaussian density with exp; bound by exp <= 1; refutation with two equal components.
* **C17** Argmin lemma; error branch.
* **C18** Nearest-neighbour contract with k=1; witnesses for the failures.
* **C19** Integer lattice coordinates; squared distance as an integer quadratic form over 4; isometry lemmas.
* **C20** Trigonometric identities; polar form of atan2.
* **C21** Invariant over histories of reset/step for the simulator state machine.
* **C22** Same invariant.
* **C23** Sums over control lists and over emitted callbacks.
* **C24** Reduces to C07 through the step function.
* **C25** Callbacks are a trace of (observer, callback); equality of projections.
* **C26** EventObserver as a fold over its callbacks; invariant over histories.
* **C27** Direct from the trace; refutation of the naive claim.
* **C28** List lemmas; error branch.
* **C29** Clip lemmas; invariant over histories for the delta adapter.
* **C30** Monotonicity of rounding; clip.
* **C31** Error branches as equivalences.
* **C32** Algebra with C01.
* **C33** Induction on the action list.
* **C34** Filter and choice; distance to itself is zero.
* **C35** Invariant on the consecutive-step counter; Rpower bounds.
* **C36** Corollary of C35 and C24.
* **C37** Layout as an equality of lists; neighbour contract.
* **C38** Polar form of atan2 and rotation.
* **C39** Abstract components; simulation with a two-state protocol automaton, induction on the call list.
* **C40** Invariant over episodes.
* **C41** State after seed+reset as a function of the seed; two-run equality.
* **C42** Exhibit the state; `_refuted` for exception safety.
* **C43** Refinement against an abstract episode counter.
* **C44** Composition of C21, C31, C37, C35.
* **C45** Loop with fuel over abstract agent, environment and clock; induction.
* **C46** Same induction.
* **C47** Fold; permutation invariance.
* **C48** Observer list before and after; exception branch.
* **C49** State machine with a boolean; the inner agent sees a trace of time steps.
* **C50** Grouping of a history by resets as an independent spec; invariant.
* **C51** Witness plus restricted theorem.
* **C52** Exact effect of n flushes.
* **C53** Case analysis on the shared model of agent step.
* **C54** f32 idempotence from Flocq; list maps.
* **C55** Flocq error bound half an ulp below 2^4; witness above.
* **C56** Option fields with proto defaults.
* **C57** Full case analysis over the four optional images.
* **C58** Ztrunc of f32; equivalence.
* **C59** Fold of cumulate; record equality.
* **C60** File system as a map from names to byte-record lists; the generator as a delayed computation.
* **C61** Norm after clipping; induction on iterations.
* **C62** Explicit cell for the shared array.
* **C63** Invariant of the double loop: sum of counts and weighted sum.
* **C64** The model returns the mutated input array.
* **C65** Cliques as an abstract cover oracle with contract.
* **C66** Fold of updates; last-writer lemma.
* **C67** Measure: number of unclassified atoms.
* **C68** Invariant over histories.
* **C69** Labels as Z with sign; modular arithmetic; lists of length three.
* **C70** Permutation and complement.
* **C71** Rotation and sorting; permutation inverse.
* **C72** Independent spec with adjacent pairs; list induction.
* **C73** Abstract aligner; induction over observations and iterations.
* **C74** Contract of the search; exclusion of the atom itself by distance zero.
* **C75** Maximum of a product of two exponentials; the mirrored peak as a `_refuted` theorem.
* **C76** Loop with fuel over an abstract generator; an independent run of clocks as specification.
* **C77** Composition of the grid construction, the swap and the translation.
* **C78** Witnesses for the failure of symmetry and of hashing; the tolerance as an inequality.
* **C79** Interval arithmetic over the draws.
* **C80** Clipping and box membership.
* **C81** Progress measure on the simulated time; the shipped stack as an instance of C45.
* **C82** Two-run equality, seed by seed.
* **C83** Fold over the events; one frame per control.
* **C84** C83 composed with C45 and the observers of C48.
* **C85** Simulation relation between the wrapped and the bare agent.
* **C86** Independent description of threefold sites and labels; case analysis of the pipeline of criteria; rigid motions.
* **C87** Lists of rows; composition with C60, C69, C72 and C86.
* **C88** `batched_loss_fn` row by row over exact reals; a specification of the waiting-time model (Spec/WaitingTimes.v) from first principles; Gibbs' inequality for the minimiser.
* **C89** `get_mlp_fn` and `apply_model` over external layers with a contract (Spec/Networks.v); means of matrices entry by entry.
* **C90** `train_epoch` and `train_model` over an external optimizer and permutation; runs of steps as an inductive `trace`; noninterference of the test data by comparing two runs.
* **C91** `create_dataset_splits` over external draws; composition with C69 and C70.
* **C92** `package_model`, `predict`, `save`, `load` with the trace of the packaged model and the directory as state.
* **C93** `__init__`, `train`, `distill` and their helpers; composition with C89 and C90.
* **C94** `pad_and_crop_images_by_fov` on images as functions of row and column (Model/ImageAligner.v); rounding bounds per axis.
* **C95** `ImageAligner.reset`, `__call__` as a state machine with arbitrary network; induction over calls.
* **C96** `process_detection_predictions`, `compute_centroids` with an arbitrary contour finder.
* **C97** the hybrid branch of `__call__`, for any post-processing and for the filter of C68.
* **C98** `AtomDetector.__call__` with float32 bits, `bitwise_xor`, dilation and erosion (Model/AtomDetector.v).
* **C99** `get_graphene_scale_factor`: sorted rows and the trimmed mean against multiset specifications.
* **C100** `generate_grid_mask`: pixel by pixel against the last covering disc (`Spec/Imaging.v`); non-square sizes.
* **C101** `generate_clean_image`: histogram, truncated Gaussian filters and division by the maximum, against a sum over atoms.
* **C102** the noise stages and `generate_stem_image`: draws as a relation on generator states, pixels as functions of the draws.
* **C103** models kept on disk: a run is a list of writes that may be cut anywhere, histories are lists of runs; invariant on the directory of a model.
* **C104** the registry's dictionaries as association lists; registrations are a fold; invariant on lookups.
* **C105** every row of the registry: the agent, adapter, features and rates it builds composed with the models of the other modules; a table in Spec/Registry.v says what each name means.
* **C106** checkpoints as a list; a run is its epochs with their saves, killed between any two; invariant over histories that steps are consecutive and how many epochs each state went through.
* **C107** best checkpoint as a fold, against a declarative best_of; archives composed with the installation model of C103.
* **C108** str.replace as a scan; the words neither overlap themselves nor each other, so that inserted words are exactly the ones found; injectivity on names without the words carries over to dicts.
* **C109** Loading as a filter over entries, converting as a fold with the corner of the field of view; the invariant is that the corner is the sum of the shifts.
* **C110** Names: join with dashes is injective on names without dashes, and underscore removes them; uploading by induction over the datasets.
* **C111** Rasters by row and column; a centre falls in exactly one pixel, so image and mask take the same one; labels by cases; division with remainder for processes.
* **C112** Induction over batches for folds; lookups in dictionaries under prefixes; counting for accuracies; softmax facts for losses.
* **C113** Cosine is decreasing on [0, pi]; linear warm-up; induction over the steps with rate zero.
* **C114** Sums over examples, times and points; means of means with equal lengths are sums over products.
* **C115** A simulation between the padded graph and the specification, by induction over the rounds; sums do not depend on order; renaming by a second induction.
* **C116** Induction over the levels for sizes, with divisibility by powers of two; for the reach, intervals of rows and columns through each layer; planes over the integers for the values.
* **C117** Explicit inverse for the draws; the disk of C103 with writes that may be cut anywhere for the files.
* **C118** Rows of the table by induction over the points; selection of the rows of one neighbour from the uniqueness of positions; argmax over the flattened square.
* **C119** Induction over the models for the files; width of the networks by induction over batches, epochs and models; the saved model is traced on a row that is one entry too short.
* **C120** Model the calls on the axes as a list of marks, the text and the limits; minima by induction over the atoms; the beam by the theorem on when the field of view moves.
* **C121** Induction over the nesting for attributes; a bisimulation between the counters of the nested limits and the counter of the single one.
* **C122** Model main over the models of the registry, run_helpers and eval_lib; the results by the theorems on evaluate; videos by a bisimulation that forgets observers; the random experiments by the episode facts.
* **C123** Model the specs of the configurations and wrappers; conformance from the lengths of the features; the answered part from the theorem that the configured stack never raises and the rewards of sessions.
* **C124** Model which parameters the recursion makes; the layout by induction over the levels with the depth and the number of normalizations as parameters; distinct names from the layout; determination by reading the widths off the kernels.
* **C125** Model the keys as trees and what is drawn as a function of the key; the choice is a search among cumulative sums, by induction over the weights; rows one by one, then vmap.
* **C126** A machine of events (make, use, write) over the disk of C103; induction over the history.
* **C127** Composition of the theorems on resets and views of the material; the minimum of distances and of their squares is at the same atom.
* **C128** Trees with a custom induction; flattening, columns, unflattening; refinement to the list of members.
* **C129** An inductive specification of numerals; rounding is unique; the separators do not occur in numbers, so the text splits in one way.
* **C130** Calls on the wrapper lift from calls on the environment; invariant of lived environments; seeding composed with trace equivalence through the wrapper.

## 5. Modelled and not modelled, by module

`tools/coverage.py` lists, for each function of `/repo`, whether some definition of the model cites it. The numbers below are functions and methods cited, of all that are not tests. Every simplification is also stated in the comment of the definition that makes it.

| module | model | not modelled, or simplified |
|---|---|---|
| `action_adapters.py` (15 of 15) | `ActionAdapters` | dtype of actions; a field of view without extent |
| `agents/agent_lib.py` (7 of 9) | `Agents`, `Registry`, `EvalCommand` | abstract methods; float32 rounding of `linspace` |
| `agents/tf_eval_agent.py` (3 of 3) | `Downloads`, `Registry` | what a loaded TensorFlow model computes (an oracle) |
| `alignment.py` (21 of 21) | `Alignment`, `ImageAligner`, `Downloads`, `LoadedModels` | argsort, cliques and K-means are oracles with contracts; float rounding |
| `atom_detector.py` (4 of 4) | `AtomDetector`, `Downloads`, `LoadedModels` | the network (an oracle) |
| `atom_detection/*` (11 of 11) | `LearningData`, `LearningSteps`, `ModelTraining`, `Schedule`, `UNet`, `UNetParameters`, `CheckpointKeys` | what an optimiser's gradients are (an oracle); TensorFlow's dataset iteration; the kernels of convolutions (parameters) |
| `graph_alignment/*` (12 of 12) | `GraphNet`, `GraphLearning` | as above; neighbour lists of jax_md (an oracle) |
| `image_alignment/*` (13 of 13) | `LearningData`, `LearningSteps`, `ModelTraining`, `Schedule`, `UNet`, `UNetParameters` | as above |
| `eval.py`, `eval_lib.py` (5 of 5) | `EvalCommand`, `EvalLib` | the text of messages; writing movies (an oracle); the wall clock (an oracle) |
| `experiments/registry.py` (13 of 13) | `Registry` | |
| `feature_constructors.py` (14 of 17) | `FeatureConstructors`, `EnvSpecs` | the resets, which do nothing; `cv2.resize` (an oracle) |
| `geometry.py` (4 of 4) | `Geometry` | signed zeros of `arctan2`; nearest neighbours are an oracle up to ties |
| `goals.py` (6 of 6) | `Goals` | |
| `graphene.py` (25 of 28) | `Graphene`, `RateData`, `RateFunctionFiles`, `RatePlots` | abstract methods of `Material`; a neighbour at the position of the silicon |
| `imaging.py` (13 of 13) | `Imaging` | `generate_stem_image` is an oracle in the simulator; `scipy`'s filters from their documentation |
| `io.py` (2 of 4) | `Io` | overloads for the type checker; TFRecord framing |
| `microscope_agent.py` (10 of 11) | `MicroscopeAgent` | `__enter__`, which returns the object; the text of csv files |
| `microscope_utils.py` (41 of 52) | `MicroscopeUtils`, `FovText` | overloads for the type checker; registration of the proto classes |
| `pipeline/*` (15 of 15) | `Pipeline`, `Upload`, `RateTraining` | image decoding; Beam's runner (steps are functions) |
| `plotting_utils.py` (9 of 9) | `Drawing`, `PlottingUtils` | pixels: a drawing is the list of calls on the axes |
| `putting_dune_environment.py` (7 of 7) | `Environment`, `EnvSpecs`, `Drawing` | |
| `rate_learning/data_utils.py` (14 of 14) | `DataUtils`, `SyntheticData`, `RateData` | the numbers of JAX's generator (any function of the key) |
| `rate_learning/learn_rates.py` (19 of 19) | `LearnRates`, `RateTraining`, `ParameterTrees` | jit and vmap (identity); gradients (an oracle) |
| `run_helpers.py` (14 of 14) | `Environment`, `Wrappers`, `EvalCommand` | `__getstate__` and pickling |
| `simulator.py`, `simulator_observers.py` (15 of 15) | `Simulator`, `SimulatorObservers` | image synthesis (an oracle) |
| `test_utils.py` (3 of 3) | `TestUtils`, `TrainEnvironment` | everything |

Not modelled anywhere: floating point rounding of float64 arithmetic, overflow and NaN unless a definition says so, memory limits, threads, and the file system beyond the files a function reads and writes.

## 6. What Print Assumptions lists

`ASSUMPTIONS.md`, generated by `tools/assumptions.py` from the output of the build, lists for each theorem of the manifest the axioms it rests on. All of them are axioms of the standard library.
