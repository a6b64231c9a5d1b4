MU = 'putting_dune/microscope_utils.py'
GR = 'putting_dune/graphene.py'
SIM = 'putting_dune/simulator.py'
OBS = 'putting_dune/simulator_observers.py'
GEO = 'putting_dune/geometry.py'
GOAL = 'putting_dune/goals.py'
ACT = 'putting_dune/action_adapters.py'
FEAT = 'putting_dune/feature_constructors.py'
ENV = 'putting_dune/putting_dune_environment.py'
RUN = 'putting_dune/run_helpers.py'
EV = 'putting_dune/eval_lib.py'
AG = 'putting_dune/microscope_agent.py'
AL = 'putting_dune/agents/agent_lib.py'
ALI = 'putting_dune/alignment.py'
IMG = 'putting_dune/imaging.py'
IO = 'putting_dune/io.py'
DU = 'putting_dune/rate_learning/data_utils.py'
LR = 'putting_dune/rate_learning/learn_rates.py'
PA = 'putting_dune/pipeline/align_trajectories.py'
PT = 'putting_dune/pipeline/trajectories_to_transitions.py'
PR = 'putting_dune/pipeline/train_rate_learner.py'
PU = 'putting_dune/pipeline/upload_microscope_data.py'
PLOT = 'putting_dune/plotting_utils.py'
REG = 'putting_dune/experiments/registry.py'
DET = 'putting_dune/atom_detector.py'

# ---------------------------------------------------------------- field of view
P('C01', 'Frame conversion round trip',
  'Converting a grid, an array, a point or a beam control from microscope frame to material frame and back (or the other way round) with the same field of view returns the original value exactly.',
  'every field of view whose width and height are non-zero, and every payload of the four supported kinds (any number of atoms, any coordinates)',
  'coordinates, field-of-view corners and atom counts are unbounded; tests use a few literal grids',
  [f'{MU}:MicroscopeFieldOfView.microscope_frame_to_material_frame', f'{MU}:MicroscopeFieldOfView.material_frame_to_microscope_frame'])
P('C02', 'Frame conversion touches nothing but positions',
  'Frame conversion in either direction keeps the kind of payload, the number and order of atoms, every atomic number, and a control\'s dwell time, voltage and current; it raises NotImplementedError exactly for unsupported payload types and ValueError exactly for a 1-D array that is not a 2-vector.',
  'every field of view and every payload',
  'needs every payload kind, length and field value',
  [f'{MU}:MicroscopeFieldOfView.microscope_frame_to_material_frame', f'{MU}:MicroscopeFieldOfView.material_frame_to_microscope_frame'])
P('C03', 'The microscope frame is the unit square of the field of view',
  'Microscope (0,0), (1,1) and (1/2,1/2) are the lower-left corner, upper-right corner and offset of the field of view, and a material point lies inside the (closed) field of view exactly when its microscope coordinates lie in [0,1] x [0,1].',
  'every field of view of positive width and height and every point',
  'an equivalence over all real coordinates',
  [f'{MU}:MicroscopeFieldOfView'])
P('C04', 'Resize and zoom keep the centre and give the exact size',
  'resize(w,h) keeps the offset and gives exactly width w and height h, and raises AssertionError exactly when w or h is not positive; zoom(z) keeps the offset, divides both extents by z, is undone by zoom(1/z), and zoom(a) then zoom(b) is zoom(a*b).',
  'every field of view of positive extent and all sizes and zoom factors',
  'algebraic laws over all reals',
  [f'{MU}:MicroscopeFieldOfView.resize', f'{MU}:MicroscopeFieldOfView.zoom', f'{MU}:MicroscopeFieldOfView.offset'])
P('C05', 'Shifting the field of view is a translation',
  'shift keeps width and height, moves the offset by the shift, composes additively, is undone by the opposite shift, and the point at microscope coordinates q after shift(d) is the point at q before, moved by d. Shifting a grid or a control moves every position by exactly the shift and nothing else.',
  'all fields of view, shifts, grids and controls',
  'algebraic laws over all reals and all grid sizes',
  [f'{MU}:MicroscopeFieldOfView.shift', f'{MU}:AtomicGrid.shift', f'{MU}:BeamControl.shift'])
P('C06', 'FOV.get_atoms_in_bounds selects exactly the atoms in view',
  'The result lists, in the original order and with unchanged positions and numbers, exactly the atoms whose position is within the closed field of view enlarged by tolerance; a larger tolerance never loses an atom, and selecting twice changes nothing.',
  'every field of view, grid and tolerance (positive or negative)',
  'any number of atoms at any positions, including exactly on the border',
  [f'{MU}:MicroscopeFieldOfView.get_atoms_in_bounds'])
P('C07', 'Material.get_atoms_in_bounds reports exactly the visible atoms, in [0,1]^2',
  'For a material that has been reset, get_atoms_in_bounds(ll, ur) returns exactly the atoms inside the closed box in order, each normalised coordinate lies in [0,1], and converting the result back to material frame with FOV(ll,ur) gives the original atoms; it equals selecting with FOV.get_atoms_in_bounds and then converting.',
  'every grid and every box of positive extent',
  'any grid size, any box',
  [f'{GR}:PristineSingleDopedGraphene.get_atoms_in_bounds', f'{MU}:MicroscopeFieldOfView.get_atoms_in_bounds'])

# -------------------------------------------------------------------- material
P('C08', 'A reset material has exactly one silicon, nearest the centre',
  'After reset the material is a sheet of carbon atoms with exactly one silicon; the silicon is an atom at minimal distance from the origin; get_silicon_position returns its position.',
  'every random generator outcome and every number of columns that yields at least one atom',
  'quantifies over all random offsets and rotations and all sheet sizes',
  [f'{GR}:PristineSingleDopedGraphene.reset', f'{GR}:generate_pristine_graphene'])
P('C09', 'Beam exposure conserves the lattice and the single dopant',
  'After any sequence of apply_control calls, atom positions are exactly those after reset (same order) and there is exactly one silicon while every other atom is carbon.',
  'every sequence of controls (any positions, any dwell times), every random outcome, every rate function that satisfies the successor contract (in particular both shipped ones)',
  'an invariant of unbounded histories with unbounded random draws',
  [f'{GR}:PristineSingleDopedGraphene.apply_control', f'{GR}:PristineSingleSiGrRatePredictor.__call__', f'{GR}:GaussianMixtureRateFunction.__call__'])
P('C10', 'The silicon only ever hops to one of its three nearest neighbours',
  'In every transition reported during apply_control the silicon moves from its current site to a site which is among the three nearest atoms to it (no atom outside those three and the silicon itself is strictly closer), so k transitions move it along a chain of k such hops; with no reported transition the material is unchanged.',
  'every grid with at least four atoms, every control, every random outcome, any number of transitions',
  'paths of unbounded length, all random outcomes and all tie-breaks of the nearest-neighbour search',
  [f'{GR}:PristineSingleDopedGraphene.apply_control', f'{GR}:PristineSingleSiGrRatePredictor.__call__', f'{GEO}:nearest_neighbors3'])
P('C11', 'Transition times are ordered and inside the exposure',
  'The times passed to observe_transition during one exposure are non-negative, non-decreasing and at most the dwell time, and each reported grid is the material at that time (the last one is the material afterwards); with a non-positive dwell time nothing happens and no random number is drawn.',
  'every control, every random outcome, any number of transitions',
  'needs every draw sequence',
  [f'{GR}:PristineSingleDopedGraphene.apply_control'])
P('C12', 'Termination of the exposure loop',
  'apply_control returns if every drawn waiting time is more than half a microsecond (after at most one iteration per microsecond of dwell time); if draws of at most half a microsecond keep coming while rates are positive it never returns, because timedelta rounds them to zero.',
  'every dwell time and every draw sequence with that property',
  'termination and divergence cannot be observed by running tests',
  [f'{GR}:PristineSingleDopedGraphene.apply_control'])
P('C13', 'Use before reset is rejected without side effects',
  'Calling get_atoms_in_bounds, apply_control or get_silicon_position on a material, or step_and_image on a simulator, before reset raises RuntimeError and leaves the object unchanged; after reset these never raise that error.',
  'every argument and every object state reachable without reset',
  'all arguments',
  [f'{GR}:PristineSingleDopedGraphene._assert_has_been_reset', f'{SIM}:PuttingDuneSimulator._assert_has_been_reset'])
P('C14', 'The simple rate function is a bounded decreasing function of distance',
  'simple_canonical_rate_function gives each listed neighbour a rate in (0,1], equal to 1 exactly when the beam is on that neighbour, strictly decreasing in the beam-neighbour distance, unaffected by translating the whole scene and independent of the silicon position.',
  'every grid, beam position and neighbour list',
  'all real positions',
  [f'{GR}:simple_canonical_rate_function'])
P('C15', 'Rate functions produce well-formed rates',
  'PristineSingleSiGrRatePredictor returns exactly one successor per nearest neighbour of the silicon, in order, with that neighbour as the only silicon, the predicted rate (rounded to float32) attached and total_rate their sum; it raises SiliconNotFoundError exactly when there is no silicon and AssertionError exactly when a predicted rate is negative or the number of rates is wrong.',
  'every grid with at least four atoms, every beam position and every canonical rate function',
  'all grids and all pluggable rate functions',
  [f'{GR}:PristineSingleSiGrRatePredictor.__call__', f'{GR}:Rates.total_rate'])
P('C16', 'The Gaussian mixture rate is bounded by max_rate',
  'The documented role of max_rate is an upper bound of the mixture rate. With one component the rate to each neighbour is at most max_rate, reaching it exactly at the component centre; with n components it is at most n*max_rate, and max_rate itself can be exceeded.',
  'all mixtures with positive weights and variances, all beam positions',
  'a bound over all reals',
  [f'{GR}:GaussianMixtureRateFunction._normalizing_factor', f'{GR}:GaussianMixtureRateFunction.__call__'])
P('C17', 'get_single_silicon_position contract',
  'It raises SiliconNotFoundError exactly when the grid has no silicon; otherwise it returns the position of a silicon atom of the grid, the only one if there is one, and one at minimal distance from (0.5,0.5) if there are several (the first such).',
  'every grid',
  'any number and arrangement of silicon atoms',
  [f'{GR}:get_single_silicon_position', f'{GR}:get_silicon_positions'])
P('C18', 'Grid equality is reflexive but neither symmetric nor compatible with hash',
  'AtomicGrid.__eq__ is true of a grid and itself and true for any reordering of its atoms (when positions are distinct), it implies equal atom counts and that every atom of the right grid has an equal-numbered atom of the left within 1e-3; but it is not symmetric, and equal grids may have different hashes, so grids cannot safely be dictionary keys.',
  'all grids',
  'quantifies over all grids; the failures need specific witnesses',
  [f'{MU}:AtomicGrid.__eq__', f'{MU}:AtomicGrid.__hash__'])
P('C19', 'The generated lattice has graphene spacing',
  'In the generated hexagonal sheet no two atoms coincide, any two distinct atoms are at least one bond length (1.42 A) apart after scaling, and every atom all of whose lattice neighbours are on the sheet has exactly three atoms at exactly one bond length; centring, random offset and rotation change no pairwise distance.',
  'every number of columns and every random offset and rotation',
  'all sheet sizes and angles',
  [f'{GR}:_generate_hexagonal_grid', f'{GR}:generate_pristine_graphene'])
P('C20', 'Rotations are rotations',
  'rotate_coordinates by t keeps all norms and pairwise distances, fixes the origin, composes additively, is undone by -t, has period 2*pi and moves the point at angle a to angle a+t; get_angles returns the polar angle, so rotating a point by minus its angle puts it on the positive x axis.',
  'all points and angles',
  'all reals',
  [f'{GEO}:rotate_coordinates', f'{GEO}:get_angles'])

# ------------------------------------------------------------------- simulator
P('C21', 'After reset and after every step the silicon is visible in the safe area',
  'The observation returned by reset and by every successful step_and_image contains exactly one silicon, whose microscope coordinates lie in [0.25, 0.75]^2; right after a re-centring (and after reset) it is exactly (0.5, 0.5).',
  'every history of resets and steps with any controls, every random outcome',
  'unbounded histories and random moves',
  [f'{SIM}:PuttingDuneSimulator.reset', f'{SIM}:PuttingDuneSimulator.step_and_image', f'{SIM}:PuttingDuneSimulator._silicon_outside_of_safe_area'])
P('C22', 'The field of view is a square whose size only changes at reset',
  'Between two resets width = height = a constant in [15, 30], and the field of view only ever moves in a step whose pre-image silicon was outside the safe area, to be centred on the silicon.',
  'every history',
  'unbounded histories',
  [f'{SIM}:PuttingDuneSimulator'])
P('C23', 'Time accounting',
  'The elapsed time of a reset observation is one image duration; of a step it is the sum of the dwell times of the controls plus one image duration, plus a second one exactly when the field of view was re-centred; and it equals the sum of dwell times and image durations reported to every observer during that call.',
  'every control sequence and history',
  'unbounded control sequences',
  [f'{SIM}:PuttingDuneSimulator.step_and_image', f'{SIM}:PuttingDuneSimulator._get_observed_grid_and_elapsed_time'])
P('C24', 'Observations describe the material faithfully',
  'The grid of every returned observation is exactly the part of the material inside the returned field of view: converting it back to material frame gives exactly the material atoms in the closed field of view, in order. Controls are echoed unchanged, reset observations carry no controls, and an image is present exactly if requested.',
  'every history',
  'unbounded histories',
  [f'{SIM}:PuttingDuneSimulator.step_and_image', f'{SIM}:PuttingDuneSimulator.reset'])
P('C25', 'Every observer sees the same complete event stream',
  'During any call all registered observers receive the same callbacks in the same order; for a step that is, per control, apply_control (with the position converted with the field of view before the step and the control\'s dwell time) followed by its transitions, then take_image, then (if re-centred) fov_change and take_image, then generated_image if requested.',
  'every history and any number of observers',
  'unbounded histories and numbers of observers',
  [f'{SIM}:PuttingDuneSimulator', f'{OBS}:EventObserver'])
P('C26', 'The event log is a faithful replay of the episode',
  'An EventObserver registered from the reset on holds exactly one RESET event, at the head; replaying its log (last RESET or TRANSITION grid) yields the current material grid, its APPLY_CONTROL events are exactly all controls applied since the reset with their dwell times, and the log total of dwell times and image durations equals the sum of elapsed times of all observations of the episode.',
  'every history',
  'unbounded histories',
  [f'{OBS}:EventObserver', f'{SIM}:PuttingDuneSimulator'])
P('C27', 'Beam voltage and current of a control are not what the material sees',
  'step_and_image applies every control with the default voltage 60 and current 0.1, whatever the caller specified; the echoed controls still claim the caller\'s values.',
  'every control',
  'a claim about all controls',
  [f'{SIM}:PuttingDuneSimulator.step_and_image', f'{MU}:BeamControl'])
P('C28', 'Adding and removing observers',
  'add_observer then remove_observer of the same observer restores the observer list when it was not registered before, removing an unregistered observer raises ValueError and changes nothing, and an observer added twice receives every event twice.',
  'every observer list',
  'all lists',
  [f'{SIM}:PuttingDuneSimulator.add_observer', f'{SIM}:PuttingDuneSimulator.remove_observer'])

# --------------------------------------------------- adapters, features, goals
P('C29', 'Action adapters never aim the beam outside the field of view',
  'Every action adapter turns any action (in or out of its spec) into exactly one control whose position lies in [0,1]^2, for every history of resets and actions.',
  'every action vector, observation and history',
  'unbounded histories and out-of-spec actions',
  [f'{ACT}:DirectActionAdapter', f'{ACT}:DeltaPositionActionAdapter', f'{ACT}:RelativeToSiliconActionAdapter', f'{ACT}:RelativeToSiliconMaterialFrameActionAdapter'])
P('C30', 'Dwell times of adapters stay in the configured range',
  'Direct and delta adapters always use 1.5 s; the relative adapters always produce a dwell time within [min,max] of the configured range, exactly min when the range is a point, min at action <= 0 and max at action >= 1, non-decreasing in the action.',
  'every range with min <= max and every action',
  'all ranges and actions (with microsecond rounding)',
  [f'{ACT}:RelativeToSiliconActionAdapter.get_action'])
P('C31', 'Relative adapters need exactly one silicon',
  'The relative adapters raise RuntimeError exactly when the observation does not show exactly one silicon atom (zero or several), and IndexError exactly when a dwell action is required but missing.',
  'every observation and action',
  'all grids',
  [f'{ACT}:RelativeToSiliconActionAdapter.get_action', f'{ACT}:RelativeToSiliconMaterialFrameActionAdapter.get_action'])
P('C32', 'Relative adapters aim where asked, in angstroms',
  'If the target is in view, the relative adapter aims the beam (in material frame) at silicon + clip(action)*max_distance per axis, hence never further than max_distance per axis from the silicon; the material-frame adapter aims exactly at silicon + action angstroms.',
  'every field of view of positive extent (also non-square), every silicon in view and every action',
  'all geometries',
  [f'{ACT}:RelativeToSiliconActionAdapter.get_action', f'{ACT}:RelativeToSiliconMaterialFrameActionAdapter.get_action'])
P('C33', 'The delta adapter is a clipped random walk',
  'After a reset and any sequence of actions the beam is the iterated clip of start + action; if the running sums never leave the unit square, it is exactly start + sum of the actions.',
  'every start and action sequence',
  'unbounded sequences',
  [f'{ACT}:DeltaPositionActionAdapter'])
P('C34', 'Goals are real atoms in range, never the silicon itself',
  'Goal.reset picks (in material frame) an atom of the observation whose distance from the silicon is strictly between 0.1 and 50 angstroms, hence not the silicon; it raises SiliconNotFoundError exactly if there is no silicon and RuntimeError exactly if there is no such atom, leaving the previous goal in place in both cases.',
  'every observation and random outcome',
  'all grids and draws',
  [f'{GOAL}:SingleSiliconGoalReaching.reset'])
P('C35', 'Termination and reward of the goal',
  'The goal is terminal exactly when the silicon is strictly closer than 0.71 A to the goal position in material frame, whatever the field of view and the history; the reward is 0.9967^seconds in (0,1] if terminal and 0 otherwise; it never truncates; SiliconNotFoundError exactly without silicon.',
  'every observation with non-negative elapsed time and every history of calls',
  'all observations and histories (the consecutive-step counter)',
  [f'{GOAL}:SingleSiliconGoalReaching.calculate_reward_and_terminal'])
P('C36', 'Goal decisions do not depend on how the scene is framed',
  'Two observations of the same material scene through different fields of view that both show the single silicon give the same terminal decision and, for equal elapsed time, the same reward.',
  'all pairs of fields of view',
  'relational property over all pairs',
  [f'{GOAL}:SingleSiliconGoalReaching.calculate_reward_and_terminal', f'{MU}:MicroscopeFieldOfView.microscope_frame_to_material_frame'])
P('C37', 'Feature vectors have the documented layout and meaning',
  'Both vector feature constructors return 10 numbers: silicon position, three neighbour offsets, goal offset; the goal offset is goal minus silicon in angstroms; material-frame neighbour offsets are those of the three nearest other atoms in angstroms; the microscope-frame ones have norm 1. Errors: SiliconNotFoundError exactly without silicon, ValueError with several silicon atoms or fewer than four atoms.',
  'every observation and goal',
  'all grids and tie-breaks',
  [f'{FEAT}:SingleSiliconPristineGrapheneFeatureConstuctor.get_features', f'{FEAT}:SingleSiliconMaterialFrameFeatureConstructor.get_features', f'{FEAT}:_get_silicon_goal_delta'])
P('C38', 'The greedy agent aims towards the neighbour nearest the goal',
  'Without noise the greedy agent\'s action is its argmax (plus fixed offset) rotated to the direction of a neighbour that is closest to the goal among the three; with the default argmax the beam is exactly 1.42 A from the silicon in the direction of that neighbour, and its distance from the silicon never depends on the neighbour chosen.',
  'every observation of the right shape with non-zero neighbour offsets',
  'all geometries',
  [f'{AL}:GreedyAgent.step', f'{GEO}:rotate_coordinates', f'{GEO}:get_angles'])

# ----------------------------------------------------------------- environment
P('C39', 'The environment follows the dm_env protocol',
  'In any sequence of reset and step calls that do not raise: the first result and every result of reset is FIRST; a step returns FIRST exactly if it is the first call or the previous result was LAST (auto-reset, the action is ignored); otherwise MID or LAST; it is LAST exactly if the goal says terminal or truncated, with discount 0 exactly when terminal.',
  'every call sequence, every simulator, adapter, feature constructor and goal',
  'unbounded call histories and all pluggable components',
  [f'{ENV}:PuttingDuneEnvironment.reset', f'{ENV}:PuttingDuneEnvironment.step'])
P('C40', 'Rewards and discounts are in [0,1] and an episode pays at most once',
  'With the shipped goal every discount is 0.9967^seconds in (0,1] except 0 on termination, every reward is in [0,1], only the last step of an episode can pay, so the return of an episode is in [0,1] and positive exactly if the goal was reached.',
  'every call history',
  'unbounded histories',
  [f'{ENV}:PuttingDuneEnvironment.step', f'{GOAL}:SingleSiliconGoalReaching'])
P('C41', 'Seeding makes episodes reproducible regardless of the past',
  'After seed(s) and reset, the results of any action sequence depend only on s and the actions, not on what the environment did before.',
  'all pairs of histories, all seeds and action sequences',
  'a hyperproperty over pairs of histories',
  [f'{ENV}:PuttingDuneEnvironment.seed', f'{ENV}:PuttingDuneEnvironment.reset', f'{SIM}:PuttingDuneSimulator.reset', f'{ACT}:DeltaPositionActionAdapter.reset'])
P('C42', 'A failed reset leaves the environment believing it was reset',
  'If the simulator, goal.reset or the feature construction raises during env.reset, the environment counts as reset: the next step does not start an episode but steps the half-initialised one, with the previous goal unless goal.reset had completed. (With two columns of graphene the shipped stack does this on every reset.)',
  'all environments whose goal reset raises',
  'an exception-path state property',
  [f'{ENV}:PuttingDuneEnvironment.reset'])
P('C43', 'The step limit bounds every episode',
  'Through StepLimitWrapper with limit n >= 1 no episode contains more than n steps, the n-th is always LAST, the wrapper changes nothing else (reward, observation and discount pass through, so a goal reached on the limit still has discount 0), the following step starts a new episode, and with limit None it is transparent.',
  'every call sequence, every wrapped environment and every limit',
  'unbounded call histories',
  [f'{RUN}:StepLimitWrapper'])
P('C44', 'A step after reset never raises in the shipped stack',
  'With the simulator (three or more columns), a shipped adapter whose actions have the advertised shape and whose exposures are shorter than an hour, a shipped feature constructor and the shipped goal, no reset and no step raises, whatever happened before; at least four atoms are always in view. With two columns every reset raises.',
  'every history and random outcome',
  'end-to-end composition over unbounded histories',
  [f'{ENV}:PuttingDuneEnvironment.step', f'{SIM}:PuttingDuneSimulator.step_and_image', f'{ACT}:RelativeToSiliconActionAdapter', f'{FEAT}:SingleSiliconMaterialFrameFeatureConstructor'])

# ------------------------------------------------------------------ evaluation
P('C45', 'evaluate returns one faithful result per seed, in order',
  'The result list has the suite\'s seeds in order; num_actions is the number of env.step calls of that seed, total_reward the sum of their rewards, reached_goal holds exactly if the last time step was LAST with discount 0, and the times are NaN exactly if it was not reached.',
  'every suite, agent, environment, clock and timeout',
  'arbitrary agents and environments',
  [f'{EV}:evaluate'])
P('C46', 'The evaluation timeout is respected up to one step',
  'No step is started once agent time plus environment time reached the timeout, so accumulated time exceeds it by at most the last step; with a timeout not larger than the reset time no action is taken at all.',
  'every agent, environment, clock and timeout',
  'arbitrary clocks',
  [f'{EV}:evaluate'])
P('C47', 'Aggregation averages successes only and never divides by zero successes',
  'aggregate_results returns the success fraction over all results and averages of the other fields over the successful ones (0 if there are none), is independent of the order of results, never looks at the NaN fields of failures, and raises ZeroDivisionError exactly on an empty list.',
  'every list of results',
  'lists of any length',
  [f'{EV}:aggregate_results'])
P('C48', 'Observers added by evaluate are removed again, unless an exception escapes',
  'After a normal return the simulator\'s observers are those before the call; if the agent or environment raises, the video observer stays registered.',
  'every run',
  'exception paths',
  [f'{EV}:evaluate', f'{SIM}:PuttingDuneSimulator.remove_observer'])

# ---------------------------------------------------------------- agent/logger
P('C49', 'The microscope agent restarts the learner exactly once per episode',
  'The first step after a reset for which features and goal outcome exist gives the inner agent a FIRST time step without reward and discount, or LAST if the goal is reached or truncated; either way every later step until the next reset is MID or LAST. A step without silicon returns one zero-dwell control at (0,0), calls neither the inner agent nor the adapter and does not use up the first step; nor does a step in which the inner agent or the adapter raises.',
  'every history of resets and steps',
  'unbounded histories',
  [f'{AG}:MicroscopeAgent.step', f'{AG}:MicroscopeAgent.reset'])
P('C50', 'The logger records every step exactly once, in order',
  'After any history of successful calls followed by one flush, the written trajectories are exactly the non-empty runs of observations between resets, in order; the step records are one per step in order, numbered 1..n within each episode.',
  'every history of resets and steps',
  'unbounded histories',
  [f'{AG}:MicroscopeAgentLogger'])
P('C51', 'Episode ids of the logger are inconsistent between files',
  'Claim a user relies on: an episode record carries the episode id of its step records. It fails: a record written by reset carries the id of the next episode, and the record written by flush repeats the id of the record before it; the claim holds only for histories without a reset after a step.',
  'every history of resets and steps followed by flush',
  'needs multi-episode histories',
  [f'{AG}:MicroscopeAgentLogger.reset', f'{AG}:MicroscopeAgentLogger.flush'])
P('C52', 'Flushing twice duplicates data',
  'flush is not idempotent: a second flush writes the current trajectory and episode record again, exactly once more per extra flush, whereas step records are never duplicated.',
  'every history and number of flushes',
  'histories with repeated flushes',
  [f'{AG}:MicroscopeAgentLogger.flush'])
P('C53', 'The logger and the rescan path disagree',
  'When no silicon is visible and the features are vectors of neighbour positions, the wrapped agent returns the rescan control, but the logging wrapper raises SiliconNotFoundError for the same call and logs nothing; when silicon is visible the wrapper returns exactly the wrapped agent\'s controls. With image features the agent raises ValueError instead of rescanning.',
  'every observation and state',
  'all observations',
  [f'{AG}:MicroscopeAgentLogger.step', f'{AG}:MicroscopeAgent.step'])

# ---------------------------------------------------------------------- protos
P('C54', 'Proto round trip is float32 rounding and nothing else',
  'from_proto(to_proto(x)) for points, grids, controls, fields of view, observations and trajectories is x with every coordinate rounded to float32 (order, counts, atomic numbers and image presence unchanged); a second round trip changes nothing any more, not even the times.',
  'every object',
  'all sizes and all reals',
  [f'{MU}:AtomicGrid.to_proto', f'{MU}:BeamControl.to_proto', f'{MU}:MicroscopeFieldOfView.to_proto', f'{MU}:MicroscopeObservation.to_proto', f'{MU}:Trajectory.to_proto'])
P('C55', 'Times survive the proto exactly below 16 seconds, and not above',
  'A dwell time or elapsed time of magnitude below 16 s survives the float32 seconds field to the microsecond; there are times above 16 s that change.',
  'every number of microseconds in the range',
  'sixteen million values with float32 rounding; a proof covers them all',
  [f'{MU}:BeamControl.from_proto', f'{MU}:MicroscopeObservation.from_proto'])
P('C56', 'A control without voltage or current does not survive the proto',
  'voltage_kv=None or current_na=None comes back as 0.0; given values come back rounded to float32.',
  'every control',
  'all option combinations',
  [f'{MU}:BeamControl.to_proto', f'{MU}:BeamControl.from_proto'])
P('C57', 'Serialising transitions: exact behaviour',
  'Transition.to_proto raises exactly when an image is present whose label image is missing; a label image without its image is silently dropped; in all other cases the round trip preserves all four images and everything else up to float32. Hence a transition from the simulator with images (which never carry labels) cannot be serialised.',
  'every transition',
  'all combinations of optional images',
  [f'{MU}:Transition.to_proto', f'{MU}:Transition.from_proto'])
P('C58', 'Drift vectors are truncated to integers by the proto',
  'Drift.from_proto(to_proto(d)) keeps the jitter (float32) but truncates the drift vector towards zero; it is preserved exactly when both float32 components are integers.',
  'every drift',
  'all reals',
  [f'{MU}:Drift.from_proto', f'{MU}:Drift.to_proto'])
P('C59', 'Cumulated drift and application to observations',
  'Cumulating drifts adds the vectors (associative, any number), keeping the first jitter; applying a drift to an observation moves the field of view by it, removes the jitter from the grid and keeps controls, times and image; the documented shift of the controls does not happen and the label image is lost.',
  'all drifts and observations',
  'any number of drifts',
  [f'{MU}:Drift.cumulate_drift', f'{MU}:Drift.apply_to_observation'])
P('C60', 'Record files round trip and reject unknown extensions',
  'Writing records and reading them back with the record type yields from_proto(to_proto(r)) of each in order; any other file suffix raises ValueError for both functions, at the call for writing (nothing written) but only at the first next() for reading.',
  'every list of records and file name',
  'all lists',
  [f'{IO}:read_records', f'{IO}:write_records'])

# ------------------------------------------------------------------- alignment
P('C61', 'align_latest never returns a drift longer than max_shift',
  'For every input with at least one iteration the norm of the returned drift is at most max_shift, or the drift is NaN (no atom is close enough to one of its class); every iteration adds the mean of the kept shortest ways to the nearest reference atoms of the same class; with zero iterations it returns the initial shift; a copy of a well separated reference moved by less than half the smallest distance gives back that move exactly.',
  'all coordinates, classes, noise and parameters',
  'all point clouds and noise draws',
  [f'{ALI}:align_latest', f'{ALI}:get_offsets'])
P('C62', 'align_latest writes into the caller\'s initial shift',
  'The in-place update modifies the array passed as init_shift (or the shared default), so a later call with the default starts from the previous call\'s drift; with init_shift=None or zero iterations nothing is modified.',
  'all calls',
  'aliasing across calls',
  [f'{ALI}:align_latest'])
P('C63', 'naive_merge conserves points and their centroid',
  'The counts sum to the number of input points, every count is at least 1, and the count-weighted sum of merged positions equals the sum of all input points; IndexError exactly when all inputs are empty.',
  'any number of coordinate lists of any sizes, any cutoff',
  'unbounded sizes',
  [f'{ALI}:naive_merge'])
P('C64', 'naive_merge overwrites its first non-empty input',
  'The first non-empty input array is modified in place, exactly in the entries that received points before the first new array was allocated (that is, up to and including the first later array with an unmatched point); all other inputs are left alone.',
  'all inputs',
  'aliasing',
  [f'{ALI}:naive_merge', f'{ALI}:IterativeAlignmentFiltering.__call__'])
P('C65', 'clique_merge does not conserve points',
  'If no two points are within min_distance the result is the input; otherwise overlapping cliques count a point more than once, so the counts can exceed the number of points; each merged point lies in the bounding box of the input.',
  'all inputs',
  'all point clouds and clique structures',
  [f'{ALI}:clique_merge'])
P('C66', 'propagate_atomic_numbers only copies numbers of close atoms',
  'Every number in the result is either the initial/default one or the number of an original atom whose nearest merged atom (strictly within the threshold) is that one; if several compete, the last wins, so a silicon can be overwritten by a later carbon; with at most one candidate per merged atom all numbers are transferred.',
  'all inputs',
  'all point clouds',
  [f'{ALI}:propagate_atomic_numbers'])
P('C67', 'Class propagation terminates and two-colours consistently',
  'propagate_graphene_classes terminates after at most (number of atoms + 1) rounds, changes only atoms of degree below three, leaves labels in {0,1}, and reproduces the two-colouring of a bipartite neighbour graph on every atom connected to a trusted one.',
  'all neighbour graphs and labels',
  'all graphs',
  [f'{ALI}:propagate_graphene_classes'])
P('C68', 'The filtering aligner: its history, its drifts and what it returns',
  'Through any sequence of resets, shifts, new arrays and observations, as long as no observation has failed, the filtering aligner holds at most history_length observations (at least one), each with a class 0 or 1 for every atom. The first observation after a reset needs four atoms, reports zero drift and returns the observation itself; one that fails leaves an aligner whose calls all fail until it is reset. A later observation is aligned with the whole history; it returns exactly when its classes all occur there and it has one atomic number per atom. Every reported drift is NaN or has norm at most max_shift. The observation is moved against its drift and merged with the history by proximity (or cliques); each merged atom takes the number of the last observed atom nearest to it within 0.8 angstrom, else carbon; the moved copy joins the history and the oldest go. The first array of the history, which may be the caller\'s, is overwritten. A drift of NaN turns the observation into NaNs in the history, and makes later drifts NaN.',
  'any sequence of resets, shifts and observations, any grids, parameters and generator',
  'unbounded histories and real-valued positions',
  [f'{ALI}:IterativeAlignmentFiltering'])

# --------------------------------------------------------------- rate learning
P('C69', 'Data augmentation keeps labels consistent with geometry',
  'Augmenting n transitions yields 2*3*n: each transition and its mirror image, turned by 0, 1 and 2 neighbours. A copy keeps "the rate of the neighbour the silicon moved to", "no transition", time and context, its labels stay in {0,1,2,3} and its rates stay right for its beam position (for every mirror-symmetric rate field). Turns compose modulo the number of neighbours, mirroring is an involution that reverses turns, and the augmented data is closed under both. Synthetic transitions from the prior have consistent labels and rates, but their rates are not a function of their beam position: the same position gets different rates depending on a random number of rotations.',
  'every transition and every rotation number',
  'group laws over all data',
  [f'{DU}:rotate_dataset', f'{DU}:get_transition_rotations', f'{DU}:reflect_transition', f'{DU}:augment_data'])
P('C70', 'Train/test splits do not leak',
  'split_dataset is an exact partition of the data for any fraction, and for a fraction in [0,1] the test part has floor or ceiling of fraction*n points; bootstrap_dataset trains on n samples and tests on exactly the points not drawn; in both no point is in train and test. bootstrap_dataset raises IndexError exactly if every point was drawn, so always for a single point.',
  'all dataset sizes, fractions and random outcomes',
  'all permutations and draws',
  [f'{DU}:split_dataset', f'{DU}:bootstrap_dataset'])
P('C71', 'Canonical orientation of beam and neighbours',
  'standardize_beam_and_neighbors rotates everything by one common angle (keeping all distances), puts the neighbour nearest the beam on the positive x axis and first, orders the others counter-clockwise and returns a permutation whose argsort restores the original neighbour order (first unless another neighbour lies in exactly the same direction). Turning the input does not change the output. It raises ValueError exactly without neighbours.',
  'every beam position and neighbour triple without a neighbour at the silicon',
  'all geometries',
  [f'{DU}:standardize_beam_and_neighbors', f'{LR}:LearnedTransitionRatePredictor.predict'])

# -------------------------------------------------------------------- pipeline
P('C72', 'Trajectories become exactly their adjacent pairs',
  'trajectories_to_transitions yields, per trajectory, exactly the len-1 transitions between adjacent observations in order (none for shorter ones, never across trajectories), with the images and grids of both ends and the controls of the chosen end. The script writes these, as stored, for all trajectories of its source file, but raises ValueError as soon as some observation of a trajectory of two or more has an image without a label image.',
  'any number of trajectories of any length',
  'unbounded lists',
  [f'{PT}'])
P('C73', 'Trajectory alignment only moves fields of view',
  'do_alignment keeps the number and order of observations, controls, times and images, and the size of every field of view (and the grids unless relabelling); with zero iterations it is the identity, the last iteration always takes full steps, and with an aligner that sees how far off a field of view is every observation ends where it really is. With an aligner whose reset forgets, trajectories are aligned independently of each other. The script writes the aligned trajectories in order; given a directory with *.recordio files it always raises ValueError.',
  'all trajectories, aligners and parameters',
  'arbitrary aligners and lengths',
  [f'{PA}:do_alignment'])

# ------------------------------------------------------------ added while growing
P('C74', 'nearest_neighbors3 finds the three nearest other atoms',
  'For a query that coincides with exactly one atom, nearest_neighbors3 returns three different other atoms, nearest first, such that no remaining atom is closer (with include_self the atom itself in front); with fewer than four atoms it raises ValueError. If two atoms coincide with the query, the query atom may be returned as its own neighbour.',
  'every list of atom positions and every tie-breaking of the search',
  'all point clouds and tie-breaks',
  [f'{GEO}:nearest_neighbors3'])

P('C75', 'Where the human prior rate peaks',
  'The default HumanPriorRatePredictor gives the neighbour in direction a from the silicon a rate that is a bell of height ln2/3 around the point 0.85 bonds from the silicon in direction minus a. So aiming 0.85 bonds towards a neighbour, the documented use, maximises the rate only for neighbours on the x axis; for any other direction the mirror-image neighbour gets the maximal rate and the intended one less. Rates are always in (0, ln2/3].',
  'every beam and silicon position, every neighbour distance and direction; any mean, covariance and maximal rate for the general formula',
  'a statement about all angles and real positions',
  [f'{GR}:HumanPriorRatePredictor.predict', f'{GR}:single_silicon_prior_rates'])
P('C76', 'An exposure is a run of competing exponential clocks',
  'A completed apply_control makes exactly these random draws: while the exposure is not over, one exponential waiting time with scale 1 / total rate (clipped to an hour, rounded to microseconds), and if it falls inside the dwell time one choice among the successors with probabilities rate / total rate, after which the chosen successor is the material and is reported with the time elapsed. With the two shipped canonical rate functions it never raises for dwell times below an hour; when all rates are zero it does nothing below an hour and raises ValueError from an hour on.',
  'every rate function, control, generator outcome and number of transitions',
  'all draw sequences of unbounded length',
  [f'{GR}:PristineSingleDopedGraphene.apply_control', f'{GR}:Rates.total_rate'])
P('C77', 'The canonical sheet has its silicon at the origin',
  'canonical_pristine_graphene_with_centered_silicon returns, for two or more columns, the honeycomb sheet scaled to the bond length without rotation, shifted so that an atom nearest the centroid is exactly at the origin; that atom is the only silicon and all others are carbon. For fewer columns it raises ValueError.',
  'every number of columns',
  'all sheet sizes',
  [f'{GR}:canonical_pristine_graphene_with_centered_silicon', f'{GR}:_generate_hexagonal_grid'])
P('C78', 'Equality of Gaussian mixtures is a tolerance, not an equivalence',
  'Two GaussianMixtureRateFunctions are equal exactly when they have the same number of components and max_rate, weights, locations and variances agree componentwise within 1e-3; this is reflexive and symmetric but not transitive.',
  'all mixtures',
  'all mixtures; the failure of transitivity needs a witness',
  [f'{GR}:GaussianMixtureRateFunction.__eq__'])
P('C79', 'Sampled image parameters stay in their ranges',
  'Every field of the parameters returned by sample_image_parameters and sample_noisy_image_parameters lies in its documented interval and the image size is the requested one, so that every rendered image uses an admissible gamma, blur and noise level.',
  'every generator state, every requested size, every sampler meeting the numpy contract',
  'the range of all draws',
  [IMG + ':sample_image_parameters', IMG + ':sample_noisy_image_parameters'])
P('C80', 'Grid search and random actions stay within their bounds',
  'GreedyAgent.find_argmax returns a point of its search grid, within [low, high] per axis, where the transition function is at least as large as at every other grid point; it raises exactly if the resolution is zero or no grid point fits. UniformRandomAgent returns actions of the requested size within [low, high]. A transition function takes precedence over a manual argmax; without either the constructor raises ValueError.',
  'every transition function, bounds, resolution, size and generator state',
  'the maximum is over every grid and every function, the bounds over every draw',
  [AL + ':GreedyAgent.find_argmax', AL + ':GreedyAgent.__init__', AL + ':UniformRandomAgent.step'])

P('C81', 'Evaluating the shipped stack always returns',
  'If the agent returns acceptable actions and does not raise, every evaluation of the shipped simulator, adapters, features and goal returns one result per seed, whatever was done with the environment before; every attempt takes at most (timeout / imaging time) actions or so, because every image takes time.',
  'every suite, agent, timeout, environment history and random outcome',
  'arbitrary agents and unboundedly long runs; an environment in which no time passes makes evaluate loop for ever',
  [f'{EV}:evaluate', f'{EV}:EVAL_SUITES'])
P('C82', 'Results of a seed are reproducible and independent of the rest of the suite',
  'For an agent whose action and computing time depend only on the time step, the result of a seed is the same in every suite, at every position in it, after every history of the environment, with or without the videos.',
  'every two evaluations that contain the seed',
  'the histories before the seed are unbounded',
  [f'{EV}:evaluate'])

PU = 'putting_dune/plotting_utils.py'
P('C83', 'A video has one frame per control, showing the state before it',
  'The frames made from an event log are one per applied control, in order, plus a last one. A frame shows the grid, field of view, elapsed time and image as of just before its control, and the position of the control; the last frame shows the end of the log and the last control. Time stamps never decrease; they are printed as minutes, seconds and hundredths correct to half a hundredth, where the hundredths are 100 exactly for the last 5 ms of a second. Saving raises ValueError exactly if no control was applied since the reset.',
  'every event log',
  'logs of any length and content',
  [f'{PU}:generate_video_from_simulator_events', f'{PU}:format_timedelta', f'{PU}:_center_grid_on_single_silicon'])
P('C84', 'The videos of an evaluation show its attempts',
  'With videos, evaluate writes one video per seed that starts with that seed\'s reset, ends at the environment time of the attempt and, for the shipped adapters, has one frame more than the actions taken. If every attempt has time for one action no evaluation of the shipped stack raises; if the reset alone uses up the timeout, evaluate with videos raises ValueError at the first seed and leaves its observer registered, whereas without videos it returns.',
  'every suite, agent, environment history, timeout and random outcome',
  'unbounded runs; needs the whole stack',
  [f'{EV}:evaluate', f'{PU}:generate_video_from_simulator_events'])

P('C85', 'Logging does not change what the agent does',
  'For the shipped goal, and features that use only its position, wrapping the agent in the logger changes no answer of any sequence of resets and steps whose steps see silicon: the same controls, exceptions and generator states; and the reward that is logged for a step is the one the inner agent was shown.',
  'every inner agent, adapter and sequence of calls',
  'unbounded histories; the logger evaluates the goal a second time, which changes its state',
  [f'{AG}:MicroscopeAgentLogger.step', f'{AG}:MicroscopeAgentLogger.reset'])

RL = PR
P('C86', 'Which recorded transitions the rate learner learns from, and what it is told about them',
  'A recorded transition becomes a data point exactly if it has one control, exactly one silicon before and after, the silicon is threefold and not fourfold coordinated, the silicon seen afterwards is among the four atoms nearest to its old place, and the neighbourhood matches within the cutoff; otherwise it is counted under the first of these criteria it fails, so kept and counted add up to all transitions. The data point has the dwell time in seconds, the current and the voltage of the control, the beam position in a frame centred at the silicon with the neighbour nearest the beam on the positive x axis, and as its label 0 if the silicon is still nearest to its old place and otherwise the number, counter-clockwise in that frame, of the neighbour it is nearest to; label 1 is the neighbour nearest the beam. Moving and turning the whole scene changes nothing. With plotting switched on, the first kept transition raises TypeError.',
  'every transition, cutoff, neighbour search and argsort',
  'real-valued geometry; every order in which ties are broken; unbounded lists of transitions',
  [f'{RL}:transitions_to_datapoints', f'{RL}:plot_transition'])
P('C87', 'From record files to training rows',
  'The trajectories of several files are loaded one file after the other, and the first unreadable file ends the loading. Every data point becomes one row, in order: label, time, zero rates, beam position and the chosen numbers in the order current, voltage, dwell time (no context if none is chosen). Stacking raises ValueError exactly if there is no data and TypeError exactly if a chosen number is missing. The script trains the rate network on these rows and the classifier on rows with time 1 and the dwell time in the context; the augmented data has six copies of every row; the count of labels never raises KeyError.',
  'every set of files, choice of numbers and data',
  'unbounded data; composition of four stages',
  [f'{RL}:stack_data', f'{RL}:load_trajectories_from_records', f'{RL}:main'])

P('C88', 'The rate learner\'s loss is the likelihood of what was observed',
  'The loss of a batch is a weighted sum of two means that together are the mean negative log-likelihood of a memoryless waiting time with the predicted total rate and an independent choice of neighbour with probabilities proportional to the exponentials of the predicted scores: a silicon that stayed for t seconds costs total rate times t, one that moved to neighbour i costs minus the logarithm of the probability of moving at all within t, floored at a millionth, times the probability of i. The outcomes are a distribution, no loss is negative, rows without a transition have no class loss, and among all rates the true ones are the only minimiser of the expected loss. The rates the loss function hands back are not those of the neighbours, only the total rate.',
  'every network output, batch, dwell time and weight',
  'a property of real-valued functions for all inputs; the minimiser is over all distributions',
  [f'{LR}:batched_loss_fn'])
P('C89', 'What rates an ensemble predicts',
  'apply_model returns, for each input row and neighbour, the mean over the models of the model\'s total rate times its probability of that neighbour. All rates are positive, and they add up to the mean of the total rates. Independent clocks with a model\'s rates produce exactly the outcome probabilities its loss was computed with. The answer does not depend on the random key and changes nothing in the predictor but its key, and that only if no key is passed. With a model index it is the rates of that model.',
  'every number of models, parameters, inputs and keys',
  'unbounded ensembles and inputs; real-valued softmax identities',
  [f'{LR}:LearnedTransitionRatePredictor.apply_model', f'{LR}:get_mlp_fn'])
P('C90', 'Training uses each example at most once per epoch and never the test data',
  'An epoch succeeds only if the batch size is positive and at most the number of rows (else ZeroDivisionError or ValueError). It visits full batches that are consecutive pieces of a random permutation: no row twice, fewer than a batch left out. Each step moves the parameters by the weighted training loss of its batch alone. Training is as many epochs as asked for, and reports for each the losses of the parameters after it on the whole training and test data, not training, unweighted: total is class plus rate loss. The trained model does not depend on the test data.',
  'every optimizer, network, dataset, batch size and number of epochs',
  'unbounded schedules of steps; noninterference over two runs',
  [f'{LR}:train_epoch', f'{LR}:train_model'])
P('C91', 'What the models of an ensemble are trained and tested on',
  'create_dataset_splits makes as many pairs of datasets as asked for, each a fresh draw. With bootstrapping a training set is a sample of the rows with replacement of the size of the data and its test set consists of exactly the rows not drawn; otherwise every row is in exactly one of the two; with fraction 0 both are the data. Each is then augmented on its own, its contexts are followed by the beam position, and all test sets are cut to the length of the shortest. It succeeds for all usable data unless a bootstrap draws every row; it raises AssertionError for fractions outside [0, 1), ValueError for no splits, TypeError for rows without a context.',
  'every dataset, number of splits, fraction and random draw',
  'all draws and sizes; a leak between the two sets would only show for some draws',
  [f'{LR}:create_dataset_splits'])
P('C92', 'Saving, loading and predicting with a learned predictor',
  'A loaded predictor has the parameters and configuration that were saved and predicts exactly what the saved one predicts, but keeps its own network state. A save that fails leaves its checkpoint and nothing else; with working networks it succeeds exactly for a single model and a fixed context that is no longer than the input. predict never succeeds for a configuration that uses voltage or current, nor for an ensemble of more than one model; otherwise it succeeds and hands each neighbour the score of its place in the counter-clockwise order, with the beam position in bond lengths. These are scores, not rates: the total rate is not used. After the first prediction training and distilling change no prediction.',
  'every predictor, directory, scene and sequence of these calls',
  'histories of calls; the trace of the packaged model is hidden state',
  [f'{LR}:LearnedTransitionRatePredictor.predict', f'{LR}:LearnedTransitionRatePredictor.save', f'{LR}:LearnedTransitionRatePredictor.load', f'{LR}:LearnedTransitionRatePredictor.package_model'])
P('C93', 'Training an ensemble and distilling it into one model',
  'A new predictor has as many freshly initialised models as configured. Training replaces the i-th model by what training a fresh network on the i-th dataset with the configured settings gives. Distilling leaves exactly one model and reports one non-negative loss per epoch; the loss of a batch is zero exactly if the student has the ensemble\'s rates at every input. The inputs are normals with the mean and the standard deviation of each number in the data: of the data nothing else is used, and a number that does not vary stays as it is. The packaged model is kept.',
  'every ensemble, dataset, optimizer and number of epochs',
  'unbounded ensembles and schedules; real-valued identities',
  [f'{LR}:LearnedTransitionRatePredictor.train', f'{LR}:LearnedTransitionRatePredictor.distill', f'{LR}:distill_loss', f'{LR}:train_multiple_models'])
P('C94', 'Showing an old image in a new field of view',
  'Cropping an image to another square field of view gives an image of the same shape. Each pixel well inside the old field of view shows what the old image has within half an old and one new pixel of that place on the material, pixels well outside are blank, and with equal sides the image is moved by whole pixels, without loss where the pixels coincide. The same field of view gives the same image. False for fields of view that are not square: the two sides are exchanged.',
  'every image size, pair of fields of view and pixel',
  'needs rounding and padding bounds for all real-valued fields of view and image sizes',
  [f'{ALI}:pad_and_crop_images_by_fov'])
P('C95', 'What the image aligner remembers and shows its network',
  'After a reset for n images and any calls, some of which failed, the memory holds exactly the last n - 1 answered images, after blank ones, each scaled to [0, 1] with both ends attained (a flat image becomes NaN). The network sees exactly these, cropped to the current field of view, oldest first, then the current one; what it says for the wanted frame is returned, with the given atoms instead of the found ones if there are any. A failed call changes nothing; the first call is one after a reset with the usual length; with square views a call succeeds whenever the network does. A reset with an image of another size makes all calls fail until the next reset. Trajectories in the alignment script do not influence each other.',
  'every history of calls with any images, fields of view and networks',
  'unbounded histories with failures at any call',
  [f'{ALI}:ImageAligner.__call__', f'{ALI}:ImageAligner.reset', 'putting_dune/pipeline/align_trajectories.py:do_alignment'])
P('C96', 'Atoms from the predictions of a network',
  'The atoms are the centres of the contours of the pixels that are most likely carbon, then of those that are most likely silicon (the first of equal classes wins, and the softmax does not change the class), without those in the margin, in order and each with its kind. For square images every atom is within a pixel of the centre of mass of a contour with an area, and every such contour that is not within a pixel of the margin gives an atom; contours without area give none. False for other images: an atom in the middle is lost.',
  'every array of predictions, margin and contour finder',
  'real-valued predictions of any size; any set of contours',
  [f'{ALI}:ImageAligner.process_detection_predictions', f'{ALI}:ImageAligner.compute_centroids'])
P('C97', 'Post-processing in the hybrid image aligner',
  'A hybrid aligner fails exactly when the plain one does. Otherwise either the filter accepts the atoms of the plain one at their places on the material without the drift, and the drift returned is the sum of both and the atoms returned lie where the filter puts them, seen from the field of view moved back by it; or the filter fails, and the plain answer is returned and the filter is reset. The first image after a reset is answered like the plain one in either case, and remembered by the filter exactly if it has four atoms or more.',
  'every image, field of view, network, contour finder and state of the filter',
  'failures anywhere inside the filter; composition of real-valued frames',
  [f'{ALI}:ImageAligner.__call__', f'{ALI}:IterativeAlignmentFiltering.__call__'])
P('C98', 'The stand-alone atom detector',
  'The detector returns carbon atoms at the contours of the pixels with a probability of carbon above 0.025, then silicon atoms; it succeeds exactly if both kinds are found or none is, and raises ValueError otherwise. A pixel counts as silicon exactly if it is outside of the carbon mask and its probability is exactly one, or inside and its probability is zero or subnormal: the masking works on the bits of the numbers. Hence with a network that is nowhere certain images with carbon cannot be processed. The carbon mask of a single pixel is two to four pixels below and to the right of it. Contours without area become atoms in the corner.',
  'every image, array of float32 probabilities and contour finder',
  'all float32 bit patterns and image contents',
  [f'{DET}:AtomDetector.__call__', f'{DET}:compute_centroids'])
P('C99', 'Estimating the scale of a graphene lattice',
  'For two atoms or more the estimated scale is the mean of the distances of all atoms to their three nearest other atoms, without the smallest and the greatest quarter of them, in carbon bond lengths; with fewer atoms it is NaN. Hence if at most a quarter of these distances are shorter than d and at most a quarter longer, the estimate is exactly d in bond lengths, whatever the outliers are.',
  'every set of atoms',
  'real-valued robustness against any outliers and any number of atoms',
  [f'{ALI}:get_graphene_scale_factor'])
IMG = 'putting_dune/imaging.py'
P('C100', 'The segmentation mask of a grid',
  'For square sizes every pixel of the mask holds the atomic number of the last atom whose disc covers the centre of the pixel on the material, and zero if no disc does. Hence for atoms apart, such as those of graphene, every pixel of an atom\'s disc has its number whatever the order of the atoms. For other sizes a grid with atoms raises IndexError and an empty one gives a mask of transposed size.',
  'every grid, field of view, intensity exponent and size',
  'real-valued positions, any number of overlapping discs in any order',
  [f'{IMG}:generate_grid_mask'])
P('C101', 'The clean image of a grid',
  'Every pixel of the clean image is the sum, over all atoms inside of the widened view, of its atomic number to the given power, spread by a truncated Gaussian around the pixel the atom falls into, divided by the greatest such sum: values are between zero and one and one is attained, or all pixels are NaN, exactly if no atom is in the view. An atom in a square view appears as a round spot. False for other views: the spot is not round; and with a margin that is not a whole number of pixels atoms are displaced.',
  'every grid, field of view, size, exponent and margin',
  'real-valued sums over any number of atoms and pixels',
  [f'{IMG}:generate_clean_image'])
P('C102', 'The noise of a simulated STEM image',
  'Each stage draws the stated number of values in the stated order and changes pixels as stated: blur is a weighted mean over mirrored neighbours, counts follow the brightness, rows are rolled, flipped pixels become 0 or 1, contrast is a power, noise is added and rescaled or clipped. With the parameters of either sampler a view with an atom always gives an image for the final equalization whose pixels are all in [0, 1], or all NaN; a view without atoms always raises ValueError. NaN anywhere spreads to the whole image.',
  'every grid, view, parameters, generator state and draws',
  'real-valued pixels, all draws of all distributions',
  [f'{IMG}:generate_stem_image', f'{IMG}:apply_jitter', f'{IMG}:apply_poisson_noise', f'{IMG}:apply_salt_and_pepper_noise', f'{IMG}:apply_blur', f'{IMG}:apply_contrast', f'{IMG}:apply_exponential_noise', f'{IMG}:apply_uniform_noise', f'{IMG}:apply_gaussian_noise'])
P('C103', 'Models that are downloaded once and kept',
  'After any history of runs of the experiments, each of which may be cut after any write, the files of an agent\'s model are those of some complete download unpacked up to some write, all of them if that run was not cut; once the directory of a model exists no later run changes it, and every run loads what is there; a failed download or a broken archive leaves no such directory, so that the next run tries again. False: that the model loaded is always complete: a run cut while unpacking leaves a partial model that every later run loads. The atom detector and the image aligner make the directory before anything else: a failed or cut call makes every later one answer that the model is there, although no file is; the aligner can be told to unpack again, over the files that are there.',
  'every history of runs, archive, transfer and crash point',
  'crash points and histories of runs',
  [f'{REG}:_TfAgentCreator.__call__', f'{DET}:AtomDetector.from_url', f'{ALI}:ImageAligner.from_path'])
P('C104', 'Names of experiments and their registration',
  'The names of microscope and of training experiments are the documented ones, and every other name raises ValueError. After any sequence of registrations of evaluation experiments a name gives the built-in experiment of that name, otherwise the one registered first under it, otherwise ValueError: registrations never replace anything.',
  'every name and every sequence of registrations',
  'histories of registrations; all strings',
  [f'{REG}:register_eval_experiment', f'{REG}:create_eval_experiment', f'{REG}:create_microscope_experiment', f'{REG}:create_train_experiment'])
P('C105', 'What the registered experiments do',
  'For every registered name and every view of one silicon atom and three or more others the microscope agent of the experiment returns one exposure: random ones at the silicon atom plus offsets drawn up to one, two or three bond lengths along each axis, for 1.5 s or a time drawn from 1 s to 5 s; greedy ones at the documented vector turned towards the nearest atom that is closest to the goal, for 5 s; trained ones at the answer of their own model, shown the documented features, up to the documented distance and time. The training and random evaluation experiments never raise for actions within their bounds. False: that the actions of greedy agents are within the bounds of their adapter: only those of "greedy_short_of_neighbor" are, and none of the others.',
  'every name, observation, generator, history of the environment, model and draw',
  'all views and histories of the simulator; the table of experiments against the behaviour of five modules',
  [f'{REG}:_MICROSCOPE_EXPERIMENTS', f'{REG}:_TRAIN_EXPERIMENTS', f'{REG}:_EVAL_EXPERIMENTS', 'putting_dune/agents/tf_eval_agent.py:TfEvalAgent.step', 'putting_dune/microscope_agent.py:MicroscopeAgent.step'])
P('C106', 'Training that is killed and resumed',
  'A training run without an interruption returns the state after all epochs; the checkpoint of each epoch holds the state and metrics after it and the last one the result. In every history of runs, each of which may be killed at any time, checkpoints that exist are never changed, and their steps are 0, 1, 2, ... up to the number of epochs. A run continues from the latest checkpoint unless that is the first one: then, as without any, it starts anew. Training that has completed is not done again. False: that a resumed run gives what one run gives: it repeats the epoch of the checkpoint it resumes from, so after one crash beyond the first two checkpoints the result went through one epoch more, and in general through fewer than twice the epochs asked for, but never through fewer than asked for.',
  'every number of epochs, effect of an epoch, and history of killed and completed runs',
  'all crash points and histories of runs',
  ['putting_dune/atom_detection/train.py:train', 'putting_dune/image_alignment/train.py:train', 'putting_dune/graph_alignment/train.py:train'])
P('C107', 'Packaging a trained network',
  'The packaged network is that of the checkpoint with the greatest score (accuracy, or minus the loss and the drift error) among those with metrics, the latest among equals, so after an uninterrupted training that of the best epoch; without such a checkpoint nothing is packaged. Boxes around parameters are removed and nothing else is changed. The archive of an image aligner, installed where none was, gives exactly the files of the network. False for the atom detector: its archive holds the files under the path of a temporary directory, and after it was installed none of them is where the detector is loaded from.',
  'every store of checkpoints, network, temporary directory and disk without the model',
  'all stores, trees and disks; a round trip through two programs',
  ['putting_dune/atom_detection/save_model.py:save', 'putting_dune/image_alignment/save_model.py:save', 'putting_dune/atom_detector.py:AtomDetector.from_url', 'putting_dune/alignment.py:ImageAligner.from_path'])
P('C108', 'Parameter names in checkpoints of the graph network',
  'Saving replaces every slash and tilde in the keys of the parameters, and of the dicts in the state of the optimizer, by a word, and restoring replaces the words. So no key of a checkpoint has a slash or a tilde, whatever the state. The state comes back exactly as it was if and only if none of its keys contained one of the words; then the checkpoint has the same arrays under the saved names, in the same order. False for all states: of two parameters one of which has the name the other is saved under, one is lost.',
  'every state: any number of parameters, any names, any optimizer state',
  'a round trip for all names of any length',
  ['putting_dune/graph_alignment/train.py:sanitize_state_keys', 'putting_dune/graph_alignment/train.py:train'])
P('C109', 'Microscope data converted for upload',
  'A loaded dataset has no more images than metadata, everything in pixels of the images, and only frames with every measurement. With more than three frames the conversion gives one observation per image, in order: positions as fractions of the image, silicon exactly at the positions of dopants, the field of view moved by the sum of the shifts so far and as wide as that of the first frame, the control and time of its dwell. It succeeds exactly if every image has a frame with atoms and dopants and, if the beam was on, its place. With three frames or fewer there are no observations. False that readers get the place of the beam: it is in angstroms although they convert it from fractions.',
  'every dataset: any number of frames, any images, labels and missing entries',
  'positions and frames for stacks of any length, with any measurements missing',
  ['putting_dune/pipeline/upload_microscope_data.py:load_dataset', 'putting_dune/pipeline/upload_microscope_data.py:convert_dataset_to_proto'])
P('C110', 'Blobs of uploaded microscope data',
  'A run that finishes has uploaded every dataset that has a readout time; under a name is the data of the last dataset with that name, and other blobs are unchanged. A run that raises has uploaded exactly what came before the dataset it stopped at. Without datasets below the directory the exit status is one and nothing is uploaded. Directories without dots get the same name if and only if they agree after conversion to lower case with underscores. What was uploaded parses to the converted trajectory in single precision. False that names are unique: what follows the last dot of a run is dropped, so that runs overwrite each other. False that the uploaded files can be read: no record reader accepts their suffix.',
  'every list of datasets, every bucket, every directory name, every point a run stops at',
  'overwriting and crashes over runs of any length and names of any length',
  ['putting_dune/pipeline/upload_microscope_data.py:main', 'putting_dune/pipeline/upload_microscope_data.py:load_dataset', 'putting_dune/io.py:read_records'])
P('C111', 'Examples the networks are trained on',
  'Every pixel of an image in training, and its target, come from one and the same pixel of the example: the one its centre falls in; images of the right size are unchanged and bytes are divided by 255. The target of a pixel is one for background, carbon or silicon and zero for the other two; any label other than 0, 1, 2, 6 and 14 has no class, and exactly labels of the same class have the same target. Training on the last step keeps all images and the mask and drift of the last step. From some place before the configured one on, every example is read by exactly one process. The aligner sees an image of bytes as in training if and only if it contains both 0 and 255.',
  'every example: any image sizes, labels, numbers of steps and channels; any number of processes',
  'pixel correspondence for images of any sizes and labels of any values',
  ['putting_dune/atom_detection/dataset.py:ResizeImage', 'putting_dune/atom_detection/dataset.py:RemapAndOneHotMask', 'putting_dune/image_alignment/dataset.py:ResizeImage', 'putting_dune/image_alignment/dataset.py:RemapAndOneHotMask', 'putting_dune/image_alignment/dataset.py:SelectFinalTimestep', 'putting_dune/image_alignment/dataset.py:make_dataset'])
P('C112', 'Training steps and reported metrics',
  'An epoch takes one optimizer step along the gradient of the loss for every batch. Metrics for training are averages over its batches, each with the parameters before its step; metrics for evaluation are averages over the others with the parameters after the last step; both are reported under their own names, earlier metrics are forgotten and evaluation changes no parameters. The loss of a pixel is minus the logarithm of the probability of its class and zero without one. The accuracy of the detector is the part of all pixels whose largest logit is that of the class. Losses and errors of drifts are means of squared and plain distances. False for image alignment: its accuracy compares all pixels with the class of the first pixel of the batch, and is zero if that pixel has no class but another one has.',
  'every network, loss gradient, optimizer, state, list of batches and batch',
  'averages over epochs of any length for any network and data',
  ['putting_dune/atom_detection/train.py:train_step', 'putting_dune/atom_detection/train.py:eval_step', 'putting_dune/atom_detection/train.py:prefix_dict_keys', 'putting_dune/image_alignment/train.py:train_step', 'putting_dune/image_alignment/train.py:eval_step', 'putting_dune/graph_alignment/train.py:train_step'])
P('C113', 'Learning rate and length of training',
  'With at least one batch in an epoch and one epoch, the rate rises from zero to the configured peak in a fifth of an epoch and then falls to zero; otherwise setting up raises. It is zero exactly in the first step, if there is a warm-up, and from a fifth of an epoch before the end on. So, false that all of the training counts: the last fifth of an epoch changes no parameter, whatever the data. An epoch has the configured number of examples, rounded down to batches, if the batches of the data have the configured size; false for the graph network, which by default sees an eighth of them.',
  'every configuration, every data, every gradient',
  'a schedule over any number of steps and training of any length',
  ['putting_dune/atom_detection/train.py:train', 'putting_dune/image_alignment/train.py:train', 'putting_dune/graph_alignment/train.py:train', 'putting_dune/graph_alignment/dataset.py:make_dataset'])
P('C114', 'Loss of the graph network',
  'The global and local losses are means, over the examples of a batch and the times from a start on, of squared distances between labels and predictions; of local distances each is weighted with the first feature of its point, which is zero for padding, and all points are counted in the denominator. The total adds the local loss with its weight; by default only the first time is left out and both losses count alike. So predictions for padding points and for times before the start do not influence the loss, and without a time from the start on there is no loss (NaN). False for the reported errors: they are means over all points and times, padding included. A batch is accepted exactly if, apart from private entries, it has the four entries of an example.',
  'every network, parameters, batch (any number of examples, times and points), weight and start',
  'an exact formula and independence for batches of any size and any predictions',
  ['putting_dune/graph_alignment/train.py:train_step'])
P('C115', 'What the graph network computes',
  'The network passes messages along exactly the used links of the points: its result is that of message passing on the bare graph, whatever the capacity of the list of neighbors, its padding and its order. With other names for the points of a time, global predictions are the same and local ones those of the same points. Moving all points in a way that keeps displacements changes nothing. In training, if the capacity suffices the links are exactly all pairs nearer than the cutoff, points and themselves included. False that too small a capacity is noticed: then links are left out silently. False that the documented Dense format works: it always raises; there is a result exactly for the Sparse format, a width divisible by 8 and equally many points for each time.',
  'every parameters (any functions for the MLPs), positions, features, list of neighbors, cutoff, number of rounds and times',
  'symmetries and independence of padding for graphs of any size and any parameters',
  ['putting_dune/graph_alignment/model.py:GraphNetEncoder', 'putting_dune/graph_alignment/model.py:AlignmentGraphNetwork', 'putting_dune/graph_alignment/model.py:create_sparse_neighbor_list', 'putting_dune/graph_alignment/model.py:graph_network_neighbor_list', 'putting_dune/graph_alignment/train.py:train_step'])
P('C116', 'Sizes, reach and values of the image networks',
  'A U-net with n levels takes exactly images whose numbers of rows and columns 2^(n-1) divides (16 by default) and raises for all others; its result has the size of the image and the configured channels, and the network with global outputs adds the value its last layer gives to the mean over the pixels at the bottom. What it says of a pixel depends on no pixel more than 5*2^(n-1)-4 rows or columns away (76 by default), for the network with global outputs 6 more. Convolutions see the pixels around each place and nothing outside of the image, pooling keeps the largest of two by two pixels for each channel, transposed convolutions see the pixels at even places, and each level joins the stretched result of the levels below with its own. Without features the network raises.',
  'every parameters (any functions for taps and normalization), number of levels, image size and image',
  'sizes and dependence for images and depths of any size',
  ['putting_dune/atom_detection/model.py:UNet', 'putting_dune/image_alignment/model.py:GlobalLocalUNet'])
P('C117', 'Drawing, writing and reading of Gaussian mixture rate functions',
  'GaussianMixtureRateFunction.sample_new gives one component more than the Poisson draw, a max_rate in [0.01, 1), weights that are not negative and sum to 1, distances in [-2, 3) and variances in [0.1, 5); every rate function in these ranges can be drawn, and the only draws without a result are those where every weight is drawn as 0. A drawn rate function can be called for every sheet with one silicon atom and at least four atoms: three rates between 0 and max_rate times the number of components. serialize_to_directory makes the directory and its ancestors, writes gmm_parameters.mpk with five entries and touches no other file; deserialize_from_directory of it gives an equal rate function with the same rates. Without the file reading raises FileNotFoundError, without one of the four entries KeyError; the version and other entries are ignored. A crash leaves the old file or a first part of the new one, and the expectation that it leaves one of the two rate functions is wrong.',
  'every draws of the generator, rate function, directory, disk content, sheet and crash point',
  'all draws, all disks and all crash points',
  ['putting_dune/graphene.py:GaussianMixtureRateFunction.sample_new', 'putting_dune/graphene.py:GaussianMixtureRateFunction.serialize_to_directory', 'putting_dune/graphene.py:GaussianMixtureRateFunction.deserialize_from_directory'])
P('C118', 'What the plots of rates and of rate data show',
  'plot_rate_function3 centres the sheet on its silicon atom and draws, for each of the three nearest neighbours, a contour in a colour of its own from exactly the rates towards that neighbour over the square of beam positions; the dot at the neighbour has the same colour. plot_rate_along_neighbor_vector3 shows the rate of hopping to the first neighbour along the line through it, at the requested fractions, up to 1.1 times the greatest rate; plot_rate_along_arc3 shows the total and the three rates on the circle of the given multiple of the mean neighbour distance; its angle is measured from the y axis, not from the x axis. A sheet without silicon is a ValueError. visualize_rates returns for each neighbour the greatest predicted rate over the square and marks the first point that reaches it; a fixed context needs a square number of points, otherwise ValueError. visualize_data shows every row whose state is among the requested ones once, under the name of its state, with its share of the longest dwell time as opacity; a state above 3 that occurs is an AssertionError.',
  'every sheet, rate function, order of a set, range, number of points, predictor and table of data',
  'all sheets, rate functions, predictors and tables',
  ['putting_dune/plotting_utils.py:plot_rate_function3', 'putting_dune/plotting_utils.py:plot_rate_along_neighbor_vector3', 'putting_dune/plotting_utils.py:plot_rate_along_arc3', 'putting_dune/rate_learning/learn_rates.py:visualize_rates', 'putting_dune/pipeline/train_rate_learner.py:visualize_data'])
P('C119', 'Training of rate learners: classifiers and networks',
  'Training scikit-learn classifiers fits one classifier per data split, on the contexts with the beam position appended and the labels of that split; it writes one model file per classifier, the ensemble and the metrics, and an exception while fitting leaves the files of the earlier models only. Each of the five names gives its estimator, any other name is a ValueError, and the multi-layer perceptron can be asked for but never trained (ValueError, nothing written). Predicted rates are the mean probabilities of the classes 1 to 3 over the models. The plots at the greatest, the least and the middle context show the greatest rate of each neighbour and the first point that reaches it; support vector machines have no probabilities and end the plots with AttributeError, and a split in which a class is missing ends them with ValueError. A classification network, whose contexts include the dwell time, is never saved: its script ends with an exception after writing at most a checkpoint, because the width of the saved model is computed without the dwell time. A rate network is saved after distillation, or when there is only one; an ensemble that was not distilled is never saved.',
  'every data set, split, configuration, network, optimiser and random draw',
  'all data sets, configurations and networks',
  ['putting_dune/pipeline/train_rate_learner.py:get_sklearn_classifier', 'putting_dune/pipeline/train_rate_learner.py:train_sklearn_classifier', 'putting_dune/pipeline/train_rate_learner.py:main', 'putting_dune/rate_learning/learn_rates.py:LearnedTransitionRatePredictor.save', 'putting_dune/rate_learning/learn_rates.py:LearnedTransitionRatePredictor.package_model'])
P('C120', 'What render and the panels of a video draw',
  'render draws the last observation: every carbon atom as a dot and every silicon atom as a red dot, no other atom, the goal, if it is a position to reach, as a cross relative to the field of view, and the last control as a point, in axes from 0 to 1; the goal is within the axes exactly when it is in the field of view. It raises for no environment that was seeded, reset and stepped in any order, changes nothing and leaves one more figure open. After a reset no beam is drawn. After a step the beam is drawn at its coordinates in the field of view before the step, although the drawing shows the one after it: it is in the right place exactly when the silicon stayed in the safe area, otherwise it is off by the distance the field of view moved. The left panel of a video frame shows all atoms within its axes, a twentieth wider than their extent on each side, and the outline of the field of view; the right one shows the same atoms, goal and control relative to it, and a place is within the outline exactly when it is within the axes on the right. Frames without a grid, field of view, control or atoms, or with numbers that do not match the positions, raise.',
  'every grid, field of view, goal, control and time; every state of an environment reached by any history of calls',
  'all grids and all histories of an environment',
  ['putting_dune/plotting_utils.py:_plot_atomic_grid', 'putting_dune/plotting_utils.py:plot_microscope_frame', 'putting_dune/plotting_utils.py:plot_material_frame', 'putting_dune/plotting_utils.py:generate_video_from_simulator_events', 'putting_dune/putting_dune_environment.py:PuttingDuneEnvironment.render'])
P('C121', 'Wrapped environments',
  'Reading an attribute through any number of wrappers gives that of the outermost object that defines it; names that start with two underscores are not forwarded. An attribute that nothing defines is an AttributeError, except around a wrapper that was not initialised, where only names with two underscores are AttributeErrors and all others recurse without end. Setting an attribute through a wrapper never reaches the wrapped environment, which keeps its value. A plain wrapper and a wrapper without a limit answer every history of calls as the wrapped environment does, and two nested step limits answer every history as the smaller of the two.',
  'every nesting of wrappers, every attribute name, every history of calls of reset and step including ones that raise',
  'all nestings and all histories',
  ['putting_dune/run_helpers.py:EnvironmentWrapper', 'putting_dune/run_helpers.py:StepLimitWrapper'])
P('C122', 'The evaluation command',
  'eval.py evaluates the experiment registered under the name on the seeds 0, 1, ... of the suite, in order, with a ten minute limit and a fresh seeded agent and environment, and logs the name and the aggregated numbers of exactly these results, each within half a hundredth. An unknown experiment is a ValueError and an unknown suite a KeyError, in that order, before anything runs. If every attempt ends then the command ends with a log. Saving videos changes no logged number; one video is written per seed, none otherwise. The random experiments raise on no suite, log a proportion within [0, 1], and take fewer than 300 actions on average, so the limit of 600 steps is never what ends them.',
  'every experiment name, registered experiment, suite, agent, environment seed, clock and random stream',
  'all registered experiments, all suites, all random streams and clocks',
  ['putting_dune/eval.py:main', 'putting_dune/eval_lib.py:EVAL_SUITES', 'putting_dune/eval_lib.py:evaluate', 'putting_dune/eval_lib.py:aggregate_results', 'putting_dune/run_helpers.py:create_putting_dune_env', 'putting_dune/experiments/registry.py:create_eval_experiment'])
P('C123', 'Advertised specs are kept',
  'An environment advertises the action spec of its adapter and the observation spec of its feature constructor, and every wrapper relays both. Whatever reset and step return, in every state and for every action, has the advertised shape and holds 32 bit floats: an array of ten numbers, or a dictionary with a 128 x 128 x 1 picture and two numbers. After any history of seeds, resets, steps and observers, an action within the action spec is answered without raising, with such an observation and a reward and discount within [0, 1].',
  'every configuration of adapters, every nesting of wrappers, every history of calls, every random stream and action',
  'all states an environment can reach and all actions within the bounds',
  ['putting_dune/putting_dune_environment.py:PuttingDuneEnvironment.action_spec', 'putting_dune/putting_dune_environment.py:PuttingDuneEnvironment.observation_spec', 'putting_dune/feature_constructors.py:ImageFeatureConstructor.observation_spec', 'putting_dune/feature_constructors.py:SingleSiliconPristineGrapheneFeatureConstuctor.observation_spec', 'putting_dune/run_helpers.py:EnvironmentWrapper.observation_spec'])
P('C124', 'The parameters of the U-nets',
  'For every list of features, the parameters of the two U-nets are exactly those of its levels and outputs: level d is a convolution from the channels of the level above (the image for the first) to its own, and, above the bottom, a stretching convolution from the level below and one from twice its channels; normalizations are numbered in the order they happen, down and then up. No two parameters have the same name, so that a checkpoint holds each of them. Nets with the same parameters have the same levels, input channels and outputs: a checkpoint of an aligner fits only the length of the sequence and the choice of outputs it was trained with. The shipped nets have five levels, from 64 channels on, each twice as wide as the one above.',
  'every non-empty list of features, every number of input channels, classes and outputs, every sequence length',
  'all configurations of the networks',
  ['putting_dune/atom_detection/model.py:UNet', 'putting_dune/image_alignment/model.py:GlobalLocalUNet', 'putting_dune/image_alignment/train.py:main', 'putting_dune/image_alignment/save_model.py:main'])
P('C125', 'Synthetic transitions',
  "generate_synthetic_data gives two datasets of the size asked for, of mode prior or network. In the prior's, the beam is drawn around 0.85 bonds, every neighbour has the rate of a bell for the beam seen from it, the silicon moves to a neighbour with the probability of its share of the rates, if an exponential waiting time with the total rate is over before the time of the row, and the beam, the rates and the label are turned by the same number of neighbours. In the network's, both datasets come from one random network, and the rates of a row are its outputs for the row's own context and position, but for the last. Labels are 0 or a neighbour, times lie in the range, rates are positive, contexts have the dimension asked for; positions have it in the network's data only. No two of the numbers of a dataset, nor the training and the test data, nor the network share a random key. Any other mode ends in an UnboundLocalError. Without a seed, calls of the same second give the same data.",
  'every seed, number of rows and neighbours, dimensions, time range, every draw of the random number generator and every network',
  'all seeds and draws',
  ['putting_dune/rate_learning/data_utils.py:generate_synthetic_data', 'putting_dune/rate_learning/data_utils.py:SyntheticDataType'])
P('C126', 'When the networks of detectors and aligners are read',
  'Making a detector or an aligner reads no network. The network is read from the files when it is first needed. If that fails, the exception comes from that use, nothing is kept, and the next use reads the files again. Once it was read, the object keeps it: every later use has the same network, whatever happens to the files, also if they are replaced with reload=True; objects that have not been used yet, and new ones, get what is on disk then. Reading changes no file and no other object. After a download of the detector was cut or failed, making a detector always succeeds, without another download, and each use of one reads what the cut download left.',
  'every history of detectors and aligners made and used, downloads that fail or are cut anywhere, archives, and writes of other programs in between',
  'all interleavings of uses with changes of the files',
  ['putting_dune/atom_detector.py:AtomDetector.model', 'putting_dune/atom_detector.py:AtomDetector.from_url', 'putting_dune/alignment.py:ImageAligner.model', 'putting_dune/alignment.py:ImageAligner.from_path'])
P('C127', 'Made-up observations of a sheet with one silicon atom',
  'create_single_silicon_observation observes the sheet that a new simulated material has after its reset with the same generator: the square of 10 angstroms around the silicon atom, with exactly the atoms of the sheet inside it, at their relative places, and the silicon atom alone of its kind in the middle; there are no controls, the time is 1.5 seconds and there is no label image. An image is made only if it is asked for, of these atoms and this field of view, with parameters drawn next; an exception of the renderer comes out. create_single_silicon_pristine_sigr makes the same sheet from the same generator and uses as many of its numbers.',
  'all generators, states of them, rate functions and renderers',
  'all seeds',
  ['putting_dune/test_utils.py:create_single_silicon_observation', 'putting_dune/test_utils.py:create_single_silicon_pristine_sigr'])
P('C128', 'Stacking the members of an ensemble loses nothing',
  'Parameters, states and optimizer states of members that have the same keys and the same shapes are stacked into one tree with these keys; every array in it has the arrays of the members, in order, as its parts along a new first axis. Asking it for member k gives back exactly what was stacked k-th, for every number of members and any nesting; negative numbers count from the end, and numbers that no member has give the nearest member instead of an error. Members can be stacked only if they have the same keys and shapes: otherwise a ValueError is raised, or a TypeError if one has an array where another has keys, or if there are no members.',
  'all trees, of any nesting, shapes and numbers of members, and all places',
  'unbounded trees, shapes and ensembles',
  ['putting_dune/rate_learning/learn_rates.py:tree_stack', 'putting_dune/rate_learning/learn_rates.py:LearnedTransitionRatePredictor'])
P('C129', 'The text of a field of view',
  'str of a field of view is "FOV [(a, b), (c, d)]" with the coordinates of the lower left and the upper right corner, each rounded to the nearest hundredth, the even one if two are equally near, with exactly two decimals, no leading zeros and a minus sign if and only if it is negative, also if only zeros are left. Two fields of view have the same text if and only if all four coordinates agree in sign and nearest hundredth; then no coordinate differs by more than 0.01 angstroms.',
  'all pairs of fields of view',
  'all real coordinates; injectivity',
  ['putting_dune/microscope_utils.py:MicroscopeFieldOfView'])
P('C130', 'The environments of the registered training experiments, and of the tests',
  'For every registered training experiment, create_putting_dune_env with its constructors makes an environment that never raises, whatever the seed, the observers, the step limit and the calls to reset and step, as long as the actions are within the bounds of its action specification (and pictures can be drawn, if it shows them). The results follow the protocol of episodes, starting with the first of an episode, and no episode has more steps than the limit. What it answers to any calls depends on the seed and the limit only, not on the observers or earlier generators. create_simple_environment is this for relative_simple_rates: it always succeeds and takes two numbers between -1 and 1.',
  'all registered training experiments, seeds, observers, limits, samplers, renderers and sequences of calls',
  'all seeds, all sequences of calls of any length',
  ['putting_dune/test_utils.py:create_simple_environment', 'putting_dune/run_helpers.py:create_putting_dune_env', 'putting_dune/experiments/registry.py:create_train_experiment'])
