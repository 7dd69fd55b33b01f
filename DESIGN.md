# Formal model of highway-env in Rocq (Coq 8.16.1)

## Layout
- `properties.jsonl`: the properties (C01 ...). `MANIFEST.json`: their status and theorems. `seeded/LOG.jsonl`: the wrong programs the theorems were tested against.
- `rocq/theories/Prelude.v`: python/numpy primitives (exceptions as values, list indexing, floor-mod, argmin, stable sort, atan2 ...).
- `rocq/theories/M_*.v`: the model. Definitions only, no proofs, each citing the file and lines of /repo it models.
- `rocq/theories/S_*.v`: small specifications used in the theorem statements; they do not refer to the algorithms of the model, only to its data types and to the operations the property speaks of.
- `rocq/theories/P_*.v`: proofs.
- `rocq/theories/T_*.v`: the theorems, named `Cxx_...` after the property they prove, with `Example`s (`..._nonvacuous`) showing a concrete case that meets the hypotheses, and `Print Assumptions`. A property's theorems are all those with its prefix.

## Trusted base
1. Coq's kernel (8.16.1). No axiom of our own, no `Admitted`, no kernel check switched off, no functors or module types, no plugin. Only the standard library is imported.
2. Axioms, as listed by `Print Assumptions` under the theorems in the T files (the list is printed during the build). Every theorem uses a subset of
   - `ClassicalDedekindReals.sig_forall_dec`, `ClassicalDedekindReals.sig_not_dec`, `FunctionalExtensionality.functional_extensionality_dep` (construction of the real numbers),
   - `Classical_Prop.classic` (parts of the analysis library: `sqrt`, `ln`, `exp`, trigonometry, limits).
   Theorems that do not involve real numbers (C12-C17, C43, C52, parts of others) are closed under the global context or use only what the types of the model mention.
3. The faithfulness of the model, which is by inspection: each definition carries the file and lines it transcribes and its simplifications.

## Modelling decisions (simplifications)
- Numbers: float64 is idealised as exact real arithmetic (`R`). NaN, infinities, rounding and signed zeros are not modelled. A python float division by zero (ZeroDivisionError) and a numpy division by zero (inf/nan) are distinguished only where a theorem says so; otherwise `x / 0` is Coq's total division and theorems assume the denominator is not zero or the code protects it.
- Exceptions are values of type `res` (`Ok`/`Err` with the exception class). Exceptions leave no partial effects in the model, because no theorem speaks of the state after one. Messages are not modelled, and ValueErrors are not distinguished from one another.
- Object identity (`is`) is an identifier. `deepcopy` is modelled twice: on an explicit graph of objects (`M_Heap`: C52) and as renaming (`M_Copies`: C83, C84). Class-level mutable state is outside the object graph and modelled in `M_Reset` (C54). Python's recursion limit is not modelled.
- Randomness: every random draw is an oracle `draw`, and theorems hold for every oracle in the range the generator guarantees (`draw_ok`). `shuffle` is an arbitrary permutation, and iteration over a python `set` is an arbitrary order.
- Class constants that the code mutates per class are stored per vehicle (`v_par`, `v_grid`); `MDPVehicle.SPEED_MAX` is an argument.
- The numpy linear algebra routines `eig`, `inv`, `det` are oracles with a contract (`S_Regression.numpy_contract`); the contract is proved satisfiable in dimensions 1 and 2 (C87). Shape errors of numpy are not modelled: lists are truncated, and theorems assume that shapes agree.
- DataFrames (observations) are tables with distinct feature names.
- The dynamics of `env.step` (`M_Env.env_step`) are modelled apart from the observation, reward and info it returns (`M_Obs`, `M_Scenes`); `M_Gym` puts them together (C95-C97). LidarObservation does not exist at this commit; OccupancyGrid and Attributes observations are not observers in `M_Gym` (they have C47, C56, C77 and C94).
- Road frames (`road_step`) move every vehicle with the kinematic model; the bicycle model has its own step (`M_Bicycle`), used by the lane-keeping environment (`M_Keeping`).

## What is modelled
| source | model |
|---|---|
| utils.py | `M_Utils` (geometry, angles, maps), `M_Regression` (confidence ellipsoid/polytope, consistency) |
| interval.py | `M_Interval` (arithmetic, lane conversions, LPV predictor) |
| road/lane.py | `M_Lane` |
| road/road.py | `M_Road` (RoadNetwork), `M_Kinematics`, `M_Behavior` (Road) |
| road/regulation.py, road/objects.py | `M_Regulation`, `M_Vehicle`, `M_Kinematics` |
| vehicle/kinematics.py | `M_Vehicle`, `M_Kinematics` |
| vehicle/controller.py | `M_Control` |
| vehicle/behavior.py | `M_Behavior`, `M_Models` (data collection) |
| vehicle/dynamics.py | `M_Bicycle` |
| vehicle/uncertainty/prediction.py | `M_Observer` (observer mode), `M_Predictor` (predictor mode) |
| vehicle/uncertainty/estimation.py | `M_Regression`, `M_Models` |
| envs/common/abstract.py | `M_Env`, `M_Copies`, `M_Heap` |
| envs/common/action.py, observation.py, finite_mdp.py | `M_Action`, `M_Obs`, `M_Ttc`, `M_Mdp` (to_finite_mdp) |
| `default_config`, `configure`, action and observation factories, `class_from_path` | `M_Config` |
| envs/*_env.py | `M_Nets` (networks), `M_Reset` (reset, traffic), `M_Scenes` (ends, rewards), `M_Keeping` (lane keeping), `M_Gym` (what reset and step return) |

## What is not modelled
- Rendering is modelled down to drawing orders (`M_Graphics`, `M_Viewer`: lines and rotated boxes with pixel coordinates, and when frames are drawn and events handled). Not modelled: rasterisation by pygame (including the rounding of rotated images), tires and labels of vehicles, `draw_ground`, what an agent draws on its own surface (its plan and panel are in `M_Agent`), the wall clock, `SAVE_IMAGES`, `AbstractEnv.monitor` and video. Theorems other than C100-C104 concern environments without a window; C104 says that this makes no difference as long as no event occurs. The images of the Grayscale observation are inputs (C56 is about their stacking).
- `M_Config`: a multi-agent type inside another one, occupancy grids, attributes and images as observers, classes of other vehicles outside behavior.py, simulation frequencies that are not natural numbers (`NotImplementedError` stands for these); the first of the two `define_spaces` of `reset` is not distinguished from the second; a change of `other_vehicles_type` during an episode of the intersection. Values of the wrong type are reported where they are read.
- gym: registration, the numbers produced by `np_random` (an oracle; who owns which generator is in `M_Seed`, C117), `Space` objects beyond their shapes and bounds, `MultiAgentWrapper` (a class decorator on gym wrappers).
- `finite_mdp`: the external package that builds an `MDP` object; the tables passed to it are modelled (C49).
- `BicycleVehicle` simulate/plot/main (a demonstration script), `print`s and loggers, `to_dict` conversions other than those read by observations.
- `IntervalVehicle` trajectories kept for display; `RoadNetwork.random_lane_index`'s distribution (only its range).

## Plan per property (what is modelled, how it is proved)
- C01-C03 `M_Utils`: direct real-arithmetic functions; field/lra proofs, floor lemmas.
- C04-C06 `M_Utils`, `M_Kinematics`: the exact rectangle code; geometric spec (point of a rotated rectangle) stated separately in `S_Utils`; counterexamples by explicit witnesses; Cauchy-Schwarz bounds for the pre-check.
- C07-C10 `M_Lane`: lanes as a sum type; atan2 polar lemma; derivatives with `derivable_pt_lim`.
- C11-C20 `M_Road`: the graph as insertion-ordered association lists of strings; BFS as a queue machine on fuel with a proved termination bound; recursion over route and depth for connectivity; folds for neighbours; stable sort for close vehicles.
- C21-C25, C57-C59 `M_Kinematics`: step as a function; n-step statements by induction; the collision double loop as a fold over pairs with an invariant.
- C26-C32, C60-C62 `M_Control`: controllers mirrored; arbitrary action sequences by induction; planned routes by the correctness of BFS (C13, C14).
- C33-C36, C63-C67 `M_Behavior`: IDM/MOBIL mirrored with real powers; closed loop by induction over frames; totality of the simulation by an invariant (`runnable`).
- C37, C38, C68-C70 `M_Regulation`: the pair loop with an invariant; trajectories from C62.
- C39-C41, C71 `M_Env`, `M_Action`: the step loop by induction over frames and policy steps, any number of episodes steps.
- C31, C41 `T_Available`: what an unavailable action does, by case analysis of the controllers.
- C42, C72, C73 `M_Scenes`: bounds by real arithmetic; ranges for all weights in the stated domain, counterexamples where a documented range fails.
- C43-C45 `M_Action`: finite enumerations for meta-actions, affine maps, list induction for multi-agent.
- C46, C75, C76, C78 `M_Obs`: tables as lists of rows; order and padding by list induction; C47, C56, C77 grids: loop invariant over the vehicles, last writer wins.
- C48, C49, C74 `M_Ttc`: grid as nested lists; invariant of the nested loops characterises each cell; transitions by case analysis.
- C50, C51 `M_Interval`: enclosures by monotonicity, sums by induction on dimension; C51 by induction on steps.
- C52 `M_Heap`: deepcopy as a traversal with memo; invariant: the copied region is disjoint and isomorphic. C83: simulation relation under renaming of identities. C84: each variant by its own characterisation.
- C53, C54, C82, C85 `M_Reset`: scenes for every draw; class attributes as an explicit store; induction over the sequence of operations.
- C55, C79-C81 `M_Bicycle`: derivative of the nonlinear dynamics, eigenvalue and energy arguments for stability, induction for the discrete steps.
- C86 `M_Nets`: end points of every lane of the provided networks computed and compared.
- C87 `M_Regression`: normal equations and completion of squares; eigenvalue bounds from the contract.
- C88, C89 `M_Observer`: enclosure of each observer step by interval monotonicity, induction over steps; projection onto a box.
- C90, C91 `M_Behavior`: invariant "gap >= braking distance" over any number of frames of the whole road step.
- C92 `M_Models`: hypotheses as a store of mutable lists; invariant on numbering; induction over histories of the vehicle; failure cases by concrete histories.
- C93 `M_Predictor`, `S_Predictor`, `T_Predict`: the IntervalVehicle's default predictor; induction on the number of steps of the LPV enclosure, with the box-to-polytope construction and the change of coordinates; counterexamples for the rest.
- C94 `M_Keeping`, `S_Keeping`, `T_Keeping`: the lane-keeping environment as a whole; induction on the run with the invariant (8.3 m/s, not crashed, one of two lane states); noise as arbitrary values within a bound; `self.lpv` is None.
- C95 `M_Gym`, `S_Gym`, `T_Gym`: `reset`/`step` with everything they return, for the seven environments and three observation types; invariant `playing` (the scene is ready and sound, the observers' states usable, the step count) preserved by every step under any draws and any class attributes of the process; the ends, ranges and spaces are then those of C40, C42, C46, C72-C74, read along the trajectory. Rendering, `seed` and the `gym` spaces' own methods are not modelled.
- C96 `T_Gym`: the per-agent lists of the intersection, computed after clearing and spawning; the controlled vehicles are unaffected by both.
- C97 `T_Gym`: the GoalEnv contract; `compute_reward` as a function of the environment's current state.
- C98 `T_Scene` (spec `S_Scene`): the vehicles and objects present after `reset` in six environments, with position, direction, speed, class, route; the list mutated while iterated in summon is the relation `swept`.
- C99 `T_Track` (spec `S_Track`): quadratic Lyapunov function `drift` of offset and relative heading; every frame of the closed loop (steering law, slip angle, integration) contracts it; induction over runs of any length.
- C100 `M_Viewer`, `S_Viewer`, `T_Viewer`: key events as data; induction on the list of events (`typed`); the remembered continuous action is part of the state.
- C101-C103 `M_Graphics`, `S_Graphics`, `T_Graphics`: drawing orders as a function of the road and the surface; real arithmetic with `int` as truncation; lanes' 1-Lipschitz local coordinates for the visibility of markings.
- C104 `M_Viewer`, `S_Viewer`, `T_Viewer`: the rendering attributes of the environment and the last drawn frame (state and view); invariants over sessions (`viewed`), simulation relation with `env_step`.
- C105 `M_Gym`, `T_Returned`: every `gym_step` of a trajectory inverted under the invariant `playing`; the value theorems C42, C46, C48, C72, C74 applied to the state reached; the ranges of an observer are an invariant of the trajectory.
- C106 `M_Config`, `S_Config`, `T_Config`: python dictionaries as association lists, `update` as a fold of `assoc_set`; the readers of the configuration only look at the listed names.
- C107 `M_Config`, `T_Config`: environments with their dictionary (`player`); induction over requests; `live` re-reads the dictionary at each step as the code does.
- C108 `M_Config`, `T_Config`: `live` is the identity as long as nothing is configured, hence C95 carries over; the default dictionaries are evaluated.
- C109 `M_Config`, `S_Config`, `T_Config`: inversion of the factories on the listed faults.
- C110 `S_Repro`, `P_Paths`, `T_Repro`: set orders are part of the draws (`dr_ord`); uniqueness of shortest walks is decided by enumeration of the walks of a network and lifted to all orders by the specification of the search; simulation of two runs, step by step.
- C111 — S_Moved defines motions of the plane and the moved scene, component by component; P_Moved, P_MovedRoad and P_MovedEnv prove that every function of the model commutes with them (rotations preserve norms and scalar products; headings of lanes turn up to whole turns, which only appear under cos, sin and wrap_to_pi); T_Moved assembles steps, episodes by induction on actions, rewards and observations, and proves what depends on the place by counterexamples. Not covered: the random placement at reset and the vehicles that appear at the intersection (their timers depend on the place: C111_creation_timer).
- C112 — S_CarFollowing states the law with its own closing speed and wanted gap; T_CarFollowing proves the code computes it (trigonometry of the projected velocities), locates the equilibrium gap, compares leaders by the square of the wanted gap (both signs), and P_CarFollowing proves the bound by the target speed frame by frame, whatever is ahead (clipping, crashes and lane changes included).
- C113 — S_Apart says what it is for vehicles to be out of sight, bound elsewhere and out of contact; P_Apart proves that a front or rear query, a lane-change decision and an action do not depend on vehicles out of sight (filtering the fold over road.vehicles), hence a frame of the sub-road is the sub-road of the frame; T_Apart lifts it to runs by induction. Random draws are relabelled when predecessors are removed.
- C114 — S_Chance defines networks without fork; P_Chance proves next_lane independent of the draw there (randint(1) is 0) and lifts it through follow_road, the vehicles' acts, Road.act, frames, steps and the gym loop (the network never changes); the shipped networks by induction over add_lane. The converse (C114_fork, C114_forks) exhibits two draws with different targets.
- C115 — M_Agent models what an agent shows (labels of a plan, set_agent_action_sequence, display_trajectory, the panel). S_Agent defines films (all frames of an episode whose steps run to their end) and `picked` (every s-th element); P_Agent proves by induction over frames and actions that the prediction and the ego of the film go through the same states up to history (no influence of history, of draws without fork, of other vehicles unless a crash). C115_film shows that every full-length episode has a film; C115_nonvacuous exhibits one of 60 frames with its 12 predicted states.
- C116 — M_Mdp adds the wrapper to_finite_mdp of an environment object: the class attributes present in each class, the entry of the configuration, the size of the action space, in the order in which they are looked up. The invariant of episodes (C95, C108) gives the hypotheses of C49_built at every point; S_Mdp lists what each environment pays, independently of the tables, and says which situations a state stands for, so that the tables can be compared with the environment's own reward.
- C117 — M_Seed models the generators as objects of the process, with the references held by environments and roads: seed, reset, the creation and the deep copy of environments, and the taking of numbers, which are given by an arbitrary function of the seed and the rank. Invariant: no generator is shared between two environments. Inductions over arbitrary histories; the statements only mention the lists of numbers taken. What the numbers are used for is the subject of C98, C110 and C114, where they are arbitrary.

A statement in a property that the code does *not* meet is stated as what the code does instead, and proved (theorems with names such as `..._missed`, `..._raises`, `..._escapes`, `..._unstable`). No theorem is currently `_partial`.
