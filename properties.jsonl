{"id": "C01", "title": "Linear map is an affine bijection between ranges", "statement": "lmap(v,x,y) sends x[0] to y[0] and x[1] to y[1], keeps v's relative position in the range (so a value inside x lands inside y), is undone by swapping the two ranges, and is the only affine map with those endpoint values.", "quantifier": "every value v and every pair of non-degenerate ranges x, y", "why_tests_cant": "real-valued inputs; a wrong operand order agrees on the common ranges [0,1] and [-1,1]", "anchors": ["highway_env/utils.py:lmap"]}
{"id": "C02", "title": "Angles are wrapped to the canonical representative", "statement": "wrap_to_pi(x) lies in [-pi, pi), differs from x by an integer number of turns, and is the only number with these two properties (so it is idempotent and invariant under adding full turns).", "quantifier": "every real angle", "why_tests_cant": "all reals, including the boundary +pi and arbitrarily many turns", "anchors": ["highway_env/utils.py:wrap_to_pi"]}
{"id": "C03", "title": "Safe denominators", "statement": "not_zero(x, eps) is never closer to zero than eps, equals x when |x| > eps, keeps the sign of x (zero counts as negative) and moves x by at most 2*eps.", "quantifier": "every x and every eps > 0", "why_tests_cant": "the interesting inputs form a boundary set of measure zero", "anchors": ["highway_env/utils.py:not_zero"]}
{"id": "C04", "title": "The rectangle overlap test is symmetric", "statement": "rotated_rectangles_intersect(r1, r2) = rotated_rectangles_intersect(r2, r1).", "quantifier": "every pair of rectangles", "why_tests_cant": "four-parameter continuum for each rectangle", "anchors": ["highway_env/utils.py:rotated_rectangles_intersect", "highway_env/utils.py:has_corner_inside"]}
{"id": "C05", "title": "What the rectangle overlap test decides", "statement": "rotated_rectangles_intersect reports True exactly when one of nine marks (centre, corners, side middles) of one rectangle lies in the other one mirrored about the x axis direction (point_in_rotated_rectangle rotates the wrong way). Hence: it is the exact overlap of closed rectangles for equal rectangles of heading 0; it has no false positives for headings that are multiples of a quarter turn; whatever the headings, it reports when a centre is within half the smaller side of the other rectangle and never reports beyond the sum of half diagonals; but a perpendicular overlap of two vehicles is missed and two tilted vehicles that do not touch are reported.", "quantifier": "every pair of rectangles", "why_tests_cant": "tests only sample configurations; the failures are corner cases (crossing rectangles, tilted rectangles)", "anchors": ["highway_env/utils.py:point_in_rotated_rectangle", "highway_env/utils.py:has_corner_inside", "highway_env/utils.py:rotated_rectangles_intersect"]}
{"id": "C06", "title": "The distance pre-check never hides a collision", "statement": "For two vehicles, the collision test used by the simulation equals the rectangle overlap test on the shrunken 0.9 footprints: the 5 m centre distance shortcut never suppresses a positive answer. The same shortcut in the yielding logic (1.5 x enlarged footprints) does suppress positives.", "quantifier": "all positions and headings of both vehicles", "why_tests_cant": "continuum of poses", "anchors": ["highway_env/vehicle/kinematics.py:Vehicle._is_colliding", "highway_env/road/regulation.py:RegulatedRoad.is_conflict_possible"]}
{"id": "C07", "title": "Straight and sine lane coordinates round-trip", "statement": "On straight and sinusoidal lanes, world->lane->world and lane->world->lane conversions are both the identity; straight lane coordinates are an isometry.", "quantifier": "every lane with distinct end points (any amplitude, pulsation, phase), every point, every lane coordinate", "why_tests_cant": "continuum of inputs", "anchors": ["highway_env/road/lane.py:StraightLane", "highway_env/road/lane.py:SineLane"]}
{"id": "C08", "title": "Circular lane coordinates round-trip", "statement": "On a circular lane world->lane->world is the identity for every point, and lane->world->lane is the identity exactly when the lateral offset does not cross the centre and the travelled phase is in [-pi, pi); beyond half a turn the longitudinal coordinate jumps back by a full turn.", "quantifier": "every circular lane with positive radius, both travel directions, every point and coordinate", "why_tests_cant": "the failure set (arcs longer than half a turn) depends on branch of arctan2", "anchors": ["highway_env/road/lane.py:CircularLane"]}
{"id": "C09", "title": "Lane heading is the tangent direction", "statement": "The lane heading at s is the direction of the derivative of the centre line: position'(s) = (cos heading, sin heading) for straight and circular lanes, and a positive multiple of it for sine lanes.", "quantifier": "every lane and every longitudinal coordinate", "why_tests_cant": "differential statement, not testable pointwise", "anchors": ["highway_env/road/lane.py:StraightLane.heading_at", "highway_env/road/lane.py:SineLane.heading_at", "highway_env/road/lane.py:CircularLane.heading_at"]}
{"id": "C10", "title": "On-lane, reachability and lane distance mean what they say", "statement": "on_lane holds exactly for the points whose lane coordinates are within half a width (plus margin) laterally and within one vehicle length of the ends, whatever correct coordinates are supplied as hints; is_reachable_from is false for forbidden lanes and otherwise exactly the 2-width band; distance is non-negative and zero exactly on the centre line segment; distance_with_heading adds a penalty in [0, weight*pi].", "quantifier": "every lane, position, margin, heading and hint", "why_tests_cant": "continuum; falsy hint values 0.0 take another branch", "anchors": ["highway_env/road/lane.py:AbstractLane.on_lane", "highway_env/road/lane.py:AbstractLane.is_reachable_from", "highway_env/road/lane.py:AbstractLane.after_end", "highway_env/road/lane.py:AbstractLane.distance", "highway_env/road/lane.py:AbstractLane.distance_with_heading"]}
{"id": "C11", "title": "Closest lane query returns the first minimiser", "statement": "get_closest_lane_index returns the index of an existing lane whose distance (with heading) is minimal over all lanes of the network, the first one in insertion order among ties; it fails exactly when the network has no lane.", "quantifier": "every road network, position and heading", "why_tests_cant": "every network shape", "anchors": ["highway_env/road/road.py:RoadNetwork.get_closest_lane_index"]}
{"id": "C12", "title": "Adding a lane makes it retrievable and disturbs nothing else", "statement": "After add_lane(a,b,l), the lanes between a and b are the previous ones followed by l, get_lane((a,b,last)) is l, and every other road is unchanged; get_lane with id None works exactly when the road has one lane.", "quantifier": "every network, node names and lane", "why_tests_cant": "every network built by any sequence of additions", "anchors": ["highway_env/road/road.py:RoadNetwork.add_lane", "highway_env/road/road.py:RoadNetwork.get_lane"]}
{"id": "C13", "title": "shortest_path returns a shortest road path", "statement": "shortest_path(start, goal) terminates and returns a simple path of consecutive roads from start to goal with a minimal number of roads, and [] exactly when there is no such non-empty path or start = goal is only connected by a cycle; this holds whatever order sets of successors are iterated in.", "quantifier": "every road graph, every pair of nodes, every set iteration order", "why_tests_cant": "all graphs and all hash orders", "anchors": ["highway_env/road/road.py:RoadNetwork.shortest_path", "highway_env/road/road.py:RoadNetwork.bfs_paths"]}
{"id": "C14", "title": "bfs_paths enumerates the simple paths", "statement": "bfs_paths yields exactly the simple paths from start to goal (each once), in non-decreasing length, and terminates.", "quantifier": "every road graph, nodes and iteration order", "why_tests_cant": "all graphs, all schedules of a generator", "anchors": ["highway_env/road/road.py:RoadNetwork.bfs_paths"]}
{"id": "C15", "title": "next_lane stays on the network and follows the route", "statement": "next_lane returns the index of an existing lane; with a planned route it continues on the route's next road when the route (after dropping the current road) continues from the current node, it otherwise picks an outgoing road, keeps the lane id when the lane counts agree and otherwise the closest lane; at a dead end it returns the current lane.", "quantifier": "every network, current lane, route, position and random choice", "why_tests_cant": "every network, route and random draw", "anchors": ["highway_env/road/road.py:RoadNetwork.next_lane"]}
{"id": "C16", "title": "Side lanes are exactly the adjacent lanes of the same road", "statement": "side_lanes(i) lists exactly the existing lanes of the same road with id differing by one; all_side_lanes lists all lanes of the road.", "quantifier": "every network and lane index", "why_tests_cant": "all indices including both edges", "anchors": ["highway_env/road/road.py:RoadNetwork.side_lanes", "highway_env/road/road.py:RoadNetwork.all_side_lanes"]}
{"id": "C17", "title": "is_connected_road decides reachability within the given depth", "statement": "is_connected_road(a, b, route, same_lane, depth) is true exactly when b can be reached from a by at most depth hops (along the route when one is given, else along any successor road), and is monotone in depth.", "quantifier": "every network, pair of lanes, route and depth", "why_tests_cant": "unbounded recursion depth", "anchors": ["highway_env/road/road.py:RoadNetwork.is_connected_road", "highway_env/road/road.py:RoadNetwork.is_same_road", "highway_env/road/road.py:RoadNetwork.is_leading_to_road"]}
{"id": "C18", "title": "Neighbour query returns the nearest vehicle ahead and behind", "statement": "neighbour_vehicles(v, lane) returns, among all the other vehicles and obstacles on the lane (1 m margin), the one with the smallest longitudinal coordinate not behind v as front and the one with the largest coordinate behind v as rear; None exactly when there is none; landmarks and v itself are never returned; front and rear are different.", "quantifier": "every road population and lane", "why_tests_cant": "every number of vehicles and ties", "anchors": ["highway_env/road/road.py:Road.neighbour_vehicles"]}
{"id": "C19", "title": "close_vehicles_to returns the closest vehicles in order", "statement": "close_vehicles_to(v, distance, count, see_behind) returns vehicles other than v within the distance (and not further than two lengths behind unless see_behind), sorted by longitudinal gap, each once, and with a positive count the count closest; count=0 does not truncate.", "quantifier": "every road population and arguments", "why_tests_cant": "every number of vehicles", "anchors": ["highway_env/road/road.py:Road.close_vehicles_to"]}
{"id": "C20", "title": "Positions along a route are continuous at lane ends", "statement": "position_heading_along_route(route, s, d) walks the route lanes consuming their lengths and returns the pose on the lane holding the residual coordinate; moving past a lane end continues with the overshoot at the start of the next lane; the last lane is extrapolated.", "quantifier": "every route, longitudinal and lateral coordinate", "why_tests_cant": "unbounded route length", "anchors": ["highway_env/road/road.py:RoadNetwork.position_heading_along_route"]}
{"id": "C21", "title": "Kinematic step moves the vehicle by exactly speed*dt", "statement": "One Vehicle.step moves the position by a vector of length |speed|*dt, in direction heading+beta, changes the speed by acceleration*dt, turns by a bounded angle, and with zero steering moves along the heading and keeps it.", "quantifier": "every vehicle state, action and dt", "why_tests_cant": "continuum", "anchors": ["highway_env/vehicle/kinematics.py:Vehicle.step"]}
{"id": "C22", "title": "Crashed vehicles only brake", "statement": "Once crashed a vehicle ignores its actions: heading is frozen, its speed is multiplied by (1-dt) at each step (so never reverses or grows for 0<=dt<=1) and the total distance it travels is bounded by its speed at the crash, over any number of steps.", "quantifier": "every state at the crash, any action sequence, any number of steps, any 0 < dt <= 1", "why_tests_cant": "unbounded histories", "anchors": ["highway_env/vehicle/kinematics.py:Vehicle.clip_actions", "highway_env/vehicle/kinematics.py:Vehicle.step"]}
{"id": "C23", "title": "Speed stays within the maximum speed envelope", "statement": "A vehicle that starts within +-MAX_SPEED and whose commanded accelerations are bounded by a stays within +-(MAX_SPEED + a*dt), for any action sequence with dt <= 1. A vehicle below -MAX_SPEED is not brought back to -MAX_SPEED but accelerated towards +MAX_SPEED (by more than 80 m/s^2), whatever smaller command it got, crashed or not.", "quantifier": "every action history of any length", "why_tests_cant": "unbounded histories", "anchors": ["highway_env/vehicle/kinematics.py:Vehicle.clip_actions"]}
{"id": "C24", "title": "Trajectory history keeps the most recent 30 states in order", "statement": "After any number of steps the recorded history holds the newest min(n,30) records, newest first, and one record per step with recording enabled.", "quantifier": "any number of steps", "why_tests_cant": "unbounded histories", "anchors": ["highway_env/vehicle/kinematics.py:Vehicle.on_state_update"]}
{"id": "C25", "title": "Collisions are mutual, permanent and only slow vehicles down", "statement": "After Road.step every pair of colliding vehicles is crashed and every vehicle on an obstacle is crashed; a vehicle becomes crashed only by touching a collidable vehicle or obstacle, crashed never reverts, positions are untouched by collision handling and the colliding pair leave with the same smaller speed; no speed magnitude increases. An obstacle touched by an already crashed vehicle is not flagged as hit.", "quantifier": "every road population, any number of steps", "why_tests_cant": "all pairs, all orders, all histories", "anchors": ["highway_env/vehicle/kinematics.py:Vehicle.check_collision", "highway_env/road/road.py:Road.step"]}
{"id": "C26", "title": "Steering commands are bounded", "statement": "steering_control always returns an angle within +-pi/3 (the maximum steering angle), for every lane geometry and vehicle state; ControlledVehicle.act never issues a larger one.", "quantifier": "every vehicle, lane", "why_tests_cant": "continuum, including singular speeds", "anchors": ["highway_env/vehicle/controller.py:ControlledVehicle.steering_control", "highway_env/vehicle/controller.py:ControlledVehicle.act"]}
{"id": "C27", "title": "Speed control converges geometrically to the target", "statement": "In closed loop the speed error is multiplied by (1 - dt/0.6) each step, so it converges for 0<dt<1.2 and without overshoot for dt <= 0.6.", "quantifier": "every initial and target speed, any number of steps", "why_tests_cant": "unbounded histories", "anchors": ["highway_env/vehicle/controller.py:ControlledVehicle.speed_control"]}
{"id": "C28", "title": "A vehicle centred on a straight lane stays centred", "statement": "A controlled vehicle on the centre line of a straight target lane, aligned with it, keeps lateral offset 0 and its heading for any number of steps while its speed follows the speed controller.", "quantifier": "every straight lane, speed and number of steps", "why_tests_cant": "unbounded histories", "anchors": ["highway_env/vehicle/controller.py:ControlledVehicle.steering_control", "highway_env/vehicle/kinematics.py:Vehicle.step"]}
{"id": "C29", "title": "Lane changes only go to existing adjacent reachable lanes", "statement": "Under any sequence of actions a controlled vehicle's target lane always exists in the network; LANE_LEFT/LANE_RIGHT move the target by exactly one lane within the same road and only when that lane is reachable (in particular not forbidden), and otherwise leave the target unchanged.", "quantifier": "every network, vehicle state and action sequence", "why_tests_cant": "unbounded action sequences", "anchors": ["highway_env/vehicle/controller.py:ControlledVehicle.act", "highway_env/vehicle/controller.py:ControlledVehicle.follow_road"]}
{"id": "C30", "title": "Discrete speed levels stay in range", "statement": "For every sequence of FASTER/SLOWER/other actions an MDPVehicle's speed index is within 0..SPEED_COUNT-1 and its target speed is the grid speed of that index; converting an index to a speed and back is the identity; speed_to_index picks a nearest grid speed.", "quantifier": "every action sequence, every speed", "why_tests_cant": "unbounded histories; half-way rounding", "anchors": ["highway_env/vehicle/controller.py:MDPVehicle"]}
{"id": "C31", "title": "What an unavailable meta-action does", "statement": "A LANE_LEFT or LANE_RIGHT that get_available_actions does not list has exactly the effect of IDLE when the vehicle is not already changing lane and has not passed the end of its lane (during a lane change it may instead cancel the change, since availability looks at the current lane and execution at the target lane). FASTER at the top speed level equals IDLE exactly if the actual speed is nearest to one of the two top levels, and otherwise lowers the target speed; symmetrically SLOWER at the bottom level may raise it.", "quantifier": "every network, vehicle state and action", "why_tests_cant": "depends on transient states between index and actual speed", "anchors": ["highway_env/vehicle/controller.py:MDPVehicle.act", "highway_env/envs/common/abstract.py:AbstractEnv.get_available_actions"]}
{"id": "C32", "title": "Planned routes are connected chains to the destination", "statement": "After plan_route_to(d) the route starts with the current lane and every next element starts where the previous one ends, the last one ends in d, when d is reachable; otherwise the route is the current lane only.", "quantifier": "every network, lane and destination", "why_tests_cant": "every network", "anchors": ["highway_env/vehicle/controller.py:ControlledVehicle.plan_route_to"]}
{"id": "C33", "title": "IDM acceleration is bounded and a leader only slows down", "statement": "IDMVehicle.acceleration never exceeds COMFORT_ACC_MAX; a front vehicle never increases it, the less so the closer it is, and within the desired gap the vehicle never accelerates; on a free road it vanishes exactly at target speed, is positive below and negative above; commands applied to the dynamics are within +-ACC_MAX and +-MAX_STEERING_ANGLE; crashed vehicles take no decision; a vehicle stopped at the desired distance of a stopped one stays there.", "quantifier": "every pair of vehicles and states", "why_tests_cant": "continuum with singular denominators", "anchors": ["highway_env/vehicle/behavior.py:IDMVehicle.acceleration", "highway_env/vehicle/behavior.py:IDMVehicle.desired_gap", "highway_env/vehicle/behavior.py:IDMVehicle.act"]}
{"id": "C34", "title": "IDM on a free road converges monotonically without overshoot", "statement": "As long as nothing is ahead of it on its lane, an IDM vehicle started between 0 and its target speed has, whatever the other vehicles do, a speed that never decreases, never exceeds the target, and whose error is at most (1 - COMFORT_ACC_MAX*dt/target)^n of the initial one after n frames, for any number of frames (4*COMFORT_ACC_MAX*dt <= target, target in (0.01, 40]).", "quantifier": "every initial speed in [0, target], any number of steps", "why_tests_cant": "unbounded histories", "anchors": ["highway_env/vehicle/behavior.py:IDMVehicle.acceleration"]}
{"id": "C35", "title": "Lane changes respect MOBIL safety and incentive", "statement": "mobil(lane) is true only if the new follower would not have to brake harder than LANE_CHANGE_MAX_BRAKING_IMPOSED, and without a route only if the acceleration gain (own + politeness * followers) is at least LANE_CHANGE_MIN_ACC_GAIN; with a route only if the lane is on the side of the route lane.", "quantifier": "every traffic situation", "why_tests_cant": "continuum of situations", "anchors": ["highway_env/vehicle/behavior.py:IDMVehicle.mobil"]}
{"id": "C36", "title": "Automatic lane-change decisions are spaced and go to reachable side lanes", "statement": "change_lane_policy changes the target only to an adjacent lane that is reachable and approved by mobil, with the timer expired and restarted, or aborts an ongoing change back to the current lane exactly when another vehicle close ahead is changing into the same lane; along a simulation no new decision is taken until the timer exceeds LANE_CHANGE_DELAY.", "quantifier": "every traffic situation and history", "why_tests_cant": "unbounded histories", "anchors": ["highway_env/vehicle/behavior.py:IDMVehicle.change_lane_policy"]}
{"id": "C37", "title": "Priority rules pick exactly one yielding vehicle", "statement": "respect_priorities returns one of its two arguments: the one on the lane of lower priority; with equal priorities the one whose front distance to the other is larger (for equal headings, the one behind); swapping the arguments does not change who yields except on an exact tie, where the second argument yields.", "quantifier": "every pair of vehicles", "why_tests_cant": "continuum of poses", "anchors": ["highway_env/road/regulation.py:RegulatedRoad.respect_priorities"]}
{"id": "C38", "title": "Regulation ticks stop exactly the vehicles that must yield and release the others", "statement": "After enforce_road_rules, a vehicle is yielding (target speed 0) exactly if it is a controlled non-MDP vehicle with a conflict with some vehicle it must yield to; every other vehicle that was yielding for at least the yield duration is released with its lane's speed limit as target (one still within the duration has its timer incremented), everything else is unchanged; nobody is moved; on a road of controlled vehicles whose routes can be looked up the call never fails.", "quantifier": "every regulated road, any number of vehicles and ticks", "why_tests_cant": "unbounded histories", "anchors": ["highway_env/road/regulation.py:RegulatedRoad.enforce_road_rules", "highway_env/road/regulation.py:RegulatedRoad.step"]}
{"id": "C39", "title": "Each policy step simulates the configured number of frames and forwards the action exactly once", "statement": "A step starting at a multiple of n = floor(simulation_frequency/policy_frequency) applies the agent's action exactly once, before the first frame, and then simulates n frames, fewer only if the episode is over; along an uninterrupted episode every step is such a step. A step that starts late (after a cut step) forwards the new action only at the next multiple of n; after the end each step is a single frame, and the action is forwarded only at the multiples of n; with n <= 0 nothing is simulated, with manual control the action is never forwarded, with policy_frequency = 0 the step raises.", "quantifier": "every pair of frequencies, every episode of any length", "why_tests_cant": "unbounded step sequences, interaction of time counter and modulus", "anchors": ["highway_env/envs/common/abstract.py:AbstractEnv._simulate", "highway_env/envs/common/abstract.py:AbstractEnv.step"]}
{"id": "C40", "title": "Episodes end exactly on their terminal conditions", "statement": "The episode is over exactly when: highway - the ego crashed, duration policy steps, or (if configured) ego off its lane; roundabout - crash or duration; merge - crash or x > 370; two-way - crash; intersection - any controlled vehicle crashed, all arrived (25 m down an exit lane), or duration*policy_frequency steps; parking - duration, a crash, or success of all. Steps count policy steps; crashes are never undone and keep the episode over for ever; the step in which the time limit is reached is cut after its first frame.", "quantifier": "every environment configuration, state and episode of any length", "why_tests_cant": "unbounded histories", "anchors": ["highway_env/envs/highway_env.py:HighwayEnv._is_terminal", "highway_env/envs/roundabout_env.py:RoundaboutEnv._is_terminal", "highway_env/envs/intersection_env.py:IntersectionEnv._is_terminal", "highway_env/envs/merge_env.py:MergeEnv._is_terminal"]}
{"id": "C41", "title": "Available actions are exactly the executable ones", "statement": "get_available_actions lists IDLE always, LANE_LEFT/RIGHT exactly when the side lane exists and is reachable (and lateral control enabled), FASTER/SLOWER exactly when the speed index is not at its end (and longitudinal control enabled), without duplicates, all valid action indices.", "quantifier": "every network and ego state", "why_tests_cant": "every network and index", "anchors": ["highway_env/envs/common/abstract.py:AbstractEnv.get_available_actions"]}
{"id": "C42", "title": "Rewards are normalised to [0,1]", "statement": "On highway, a non-positive collision reward gives rewards in [0,1], throughout every episode on the straight network: 0 off the road, at most 1/3 when crashed, at least 2/3 otherwise (default collision reward), and 1 exactly in the rightmost of at least two lanes at the top of the speed range without crash. Roundabout rewards lie in [0,1] throughout every discrete-action episode (at most 1/5 crashed, at least 4/5 otherwise); two-way rewards lie in [0,1] with at least two lanes and raise ZeroDivisionError with one; each agent's intersection reward is 1 on arrival, else collision reward plus 1 at the top speed level, and its (normalised) average lies in [0,1].", "quantifier": "every state, configuration, action and episode", "why_tests_cant": "continuum of states", "anchors": ["highway_env/envs/highway_env.py:HighwayEnv._reward", "highway_env/envs/merge_env.py:MergeEnv._reward", "highway_env/envs/roundabout_env.py:RoundaboutEnv._reward", "highway_env/envs/two_way_env.py:TwoWayEnv._reward", "highway_env/envs/intersection_env.py:IntersectionEnv._agent_reward", "highway_env/envs/parking_env.py:ParkingEnv.compute_reward"]}
{"id": "C43", "title": "Meta-action encodings are bijective", "statement": "For each control mode action indices are 0..n-1, index->name and name->index are mutually inverse, and the action type refuses to be built with neither axis.", "quantifier": "all modes and all indices", "why_tests_cant": "finite but must hold for all modes together with every action", "anchors": ["highway_env/envs/common/action.py:DiscreteMetaAction"]}
{"id": "C44", "title": "Continuous actions map onto the physical ranges", "statement": "A continuous action in [-1,1] is mapped affinely onto the acceleration and steering ranges; with clip any real input stays inside them; the missing axis gets zero.", "quantifier": "every action vector and every mode", "why_tests_cant": "continuum", "anchors": ["highway_env/envs/common/action.py:ContinuousAction.act"]}
{"id": "C45", "title": "Multi-agent actions reach exactly their own vehicle", "statement": "With n controlled vehicles and n actions the i-th action reaches the i-th controlled vehicle and only it.", "quantifier": "any number of agents", "why_tests_cant": "unbounded number of agents", "anchors": ["highway_env/envs/common/action.py:MultiAgentAction.act"]}
{"id": "C46", "title": "Kinematics observation: fixed shape, ego first, closest vehicles in order", "statement": "With vehicles_count >= 2 the observation always has vehicles_count rows and one column per feature: the first row holds the observer's features in absolute coordinates, the next rows the closest vehicles (those of close_vehicles_to) in order, relative to the observer unless absolute, the remaining rows zeros; with order='shuffled' the rows after the first are permuted. Every value is mapped from its range (configured, or standard for the observer's road) to [-1,1], saturated when clipping; when every feature is bounded or has a range the result lies in the declared box. It never fails in a sane scene, is zero before a road exists; with vehicles_count=1 it shows all close vehicles and does not have the declared shape.", "quantifier": "every traffic situation", "why_tests_cant": "unbounded number of vehicles", "anchors": ["highway_env/envs/common/observation.py:KinematicObservation.observe"]}
{"id": "C47", "title": "Occupancy grid: exact content of every cell", "statement": "The grid has a plane per feature with values in [-1,1]; a cell is zero unless some vehicle is counted in it, and then holds the scaled, saturated feature of the last such vehicle in road order, relative to the observer. A vehicle is counted in the cell containing it, except that the first row and column also count vehicles up to one step below the grid, and that rows and columns are swapped with respect to the shape, so that in a grid longer than wide vehicles beyond its number of columns are lost. grid_step must be given (the default raises TypeError) and absolute grids are refused.", "quantifier": "every traffic situation", "why_tests_cant": "boundary cells", "anchors": ["highway_env/envs/common/observation.py:OccupancyGridObservation.observe"]}
{"id": "C48", "title": "Every cell of the time-to-collision grid is exactly a predicted meeting", "statement": "compute_ttc_grid has one layer per speed level, one row per lane of env.vehicle's road and floor(horizon/step) columns, and its entries are 0, 1/2 or 1: 1 exactly when some other connected vehicle of another speed, allowed in that lane, would be met (zero gap at constant speeds) at a time t >= 0 less than one step from the column; 1/2 exactly when only a vehicle length before or after. It never raises for vehicles on existing lanes observed from env.vehicle's road; an observer on a wider road makes it raise IndexError; a vehicle exactly at a layer's speed is missing from that layer.", "quantifier": "every traffic situation", "why_tests_cant": "unbounded number of vehicles and horizons", "anchors": ["highway_env/envs/common/finite_mdp.py:compute_ttc_grid"]}
{"id": "C49", "title": "Finite-MDP transitions stay in the grid and mean what actions say", "statement": "transition_model moves as the label of the action says (lane +-1, speed +-1 only at the first column, clipped to the grid) and advances time by one until the last column; the flattened tables of finite_mdp agree with it, terminal marks exactly collision cells and the last column, rewards are the stated sum; every plan of any length stays in the grid and reaches a terminal state at the horizon, changing speed level at most once. With the longitudinal-only action set, actions 0 and 2 are read as lane changes.", "quantifier": "every grid size, state and action", "why_tests_cant": "unbounded sizes", "anchors": ["highway_env/envs/common/finite_mdp.py:transition_model", "highway_env/envs/common/finite_mdp.py:clip_position", "highway_env/envs/common/finite_mdp.py:finite_mdp"]}
{"id": "C50", "title": "Interval arithmetic encloses all values", "statement": "intervals_product(a,b) contains x*y for every x in a and y in b (scalars, scalar product, matrix-vector), and is the exact range exactly when not both intervals contain zero strictly inside; intervals_scaling, intervals_diff, interval_negative_part, vector_interval_section and the lane/absolute conversions on straight lanes return exact ranges; on circular lanes the conversion of a box misses points of it. One Euler step with integrator_interval encloses the true one for steps short for the gain, although it is not the range of -k*x. The polytope of an affine map contains every value of it over the parameter box as a mean of its vertices.", "quantifier": "every pair of intervals with ordered bounds, every box, every lane", "why_tests_cant": "continuum", "anchors": ["highway_env/interval.py:intervals_product", "highway_env/interval.py:intervals_scaling", "highway_env/interval.py:intervals_diff", "highway_env/interval.py:integrator_interval", "highway_env/interval.py:vector_interval_section", "highway_env/interval.py:interval_absolute_to_local", "highway_env/interval.py:polytope"]}
{"id": "C51", "title": "Interval predictors enclose every trajectory", "statement": "For the polytopic system dx = (A0 + sum lambda_i dA_i)(x - c) + B u + D w, every Euler trajectory with lambda_i in [0,1] and w within its interval stays, for any number of steps and controls, inside the interval LPV reports: when A0 + B K is Metzler and dt is short for its diagonal; when it is rotated to its eigenvectors, starts at a point and D is the same in both coordinates; when it is not rotated and c = 0. Outside these cases the interval loses trajectories: D is not rotated, initial intervals are rotated end by end (inverted bounds), a long step inverts the bounds, and the Metzler test tolerates entries down to -1e-9. The nominal state ignores the centre.", "quantifier": "every system, every admissible parameter/disturbance history, any number of steps", "why_tests_cant": "unbounded horizon, uncountable disturbances", "anchors": ["highway_env/interval.py:LPV", "highway_env/vehicle/uncertainty/prediction.py"]}
{"id": "C52", "title": "Copies of an environment are independent", "statement": "Copying an environment (copy.deepcopy, on which simplify / change_vehicles / set_* rely) creates one new object for every object of its state, with the same class and corresponding attributes (shared and cyclic references included), changes nothing that existed, and leaves out the viewer and the rendering callback, which become None. Afterwards no object is ever within reach of both the original and the copy, whatever is done to either, in whatever order; so nothing done to one is visible through the other. The copy fails with TypeError exactly when something that cannot be copied is reachable otherwise than through the rendering attributes of an environment.", "quantifier": "every object graph, every pair of programs acting on the original and on the copy, every interleaving of them", "why_tests_cant": "aliasing depends on the whole object graph", "anchors": ["highway_env/envs/common/abstract.py:AbstractEnv.__deepcopy__", "highway_env/envs/common/abstract.py:AbstractEnv.simplify", "highway_env/envs/common/abstract.py:AbstractEnv.change_vehicles"]}
{"id": "C53", "title": "Intersection traffic management: who enters, who is removed", "statement": "_spawn_vehicle does nothing when its draw exceeds the probability or when some vehicle is closer than 15 m to the drawn entry point; otherwise exactly one vehicle is appended, on the access road of the drawn arm at the drawn place, facing the centre, at least 15 m from every vehicle, not crashed, with a new identity and (when the place is on the access road) with the route [its arm, across, exit of another arm]. _clear_vehicles removes exactly the uncontrolled vehicles that are on the last 20 m of an exit road or have no route, keeping the order of the others. During an episode controlled vehicles are never removed.", "quantifier": "every traffic population of the intersection, every random draw, every class attribute store, every action sequence", "why_tests_cant": "ranges over every traffic population, draw and history", "anchors": ["highway_env/envs/intersection_env.py:IntersectionEnv._spawn_vehicle", "highway_env/envs/intersection_env.py:IntersectionEnv._clear_vehicles"]}
{"id": "C54", "title": "Environments of one process share class attributes: exactly what leaks", "statement": "Environments interact only through class attributes. After any sequence of resets and steps of any number of environments, the speed grid of all meta-action vehicles is the roundabout's (0..16, 3 levels) iff some roundabout was ever reset, and a traffic class uses the intersection's jam distance and comfort accelerations iff an intersection was ever reset with that class or a class it inherits from; nothing restores them. As long as no operation assigns a new value (in particular without roundabouts and intersections, or once each has been reset), every environment evolves exactly as if it were alone. Otherwise they do interfere: the first roundabout episode starts with target speed 20 m/s and later ones with 8; a highway ego starts with target 16 m/s instead of 25 after a roundabout reset anywhere; in a running environment FASTER means 16 instead of 30; observations are normalised by another maximal speed; traffic is retuned.", "quantifier": "every interleaving of resets and steps of any number of environments, every configuration and draw", "why_tests_cant": "every interleaving of unbounded length", "anchors": ["highway_env/envs/roundabout_env.py:RoundaboutEnv._make_vehicles", "highway_env/envs/intersection_env.py:IntersectionEnv._make_vehicles"]}
{"id": "C55", "title": "Linearised bicycle model against its nonlinear dynamics", "statement": "For a vehicle moving forward at 1 m/s or more, lateral_lpv_dynamics returns the derivative of the nonlinear lateral dynamics at zero lateral state, except that the effect of the steering on the yaw acceleration is half the true one; its state matrix is stable and the four-state version embeds it and linearises the ordinate around heading 0. Below 1 m/s the nonlinear model ignores steering and damps lateral speed and yaw rate while the linear one has neither damping nor input, and when reversing at 1 m/s or more the nonlinear model has a lateral acceleration of -60 pi even with everything at zero, the linear one none. derivative_linear and derivative agree in the first four components and wholly at zero lateral state when not reversing.", "quantifier": "every speed and state", "why_tests_cant": "differential statement", "anchors": ["highway_env/vehicle/dynamics.py:BicycleVehicle.derivative", "highway_env/vehicle/dynamics.py:BicycleVehicle.derivative_linear", "highway_env/vehicle/dynamics.py:BicycleVehicle.lateral_lpv_structure", "highway_env/vehicle/dynamics.py:BicycleVehicle.lateral_lpv_dynamics", "highway_env/vehicle/dynamics.py:BicycleVehicle.full_lateral_lpv_structure", "highway_env/vehicle/dynamics.py:BicycleVehicle.full_lateral_lpv_dynamics"]}
{"id": "C56", "title": "Image observations stack the most recent frames", "statement": "After any number of observations the grayscale stack holds the last stack_size frames, oldest first, starting from empty frames after each reset; grey levels are the weighted sums of the pixel values, not rescaled (0 to 255 although the declared space ends at 1).", "quantifier": "any number of frames", "why_tests_cant": "unbounded histories", "anchors": ["highway_env/envs/common/observation.py:GrayscaleObservation"]}
{"id": "C57", "title": "Road objects made on a lane are not aligned with it", "statement": "RoadObject.make_on_lane puts the object at the requested lane position, but (its constructor receives the lane heading as the speed argument) always with heading 0 and with the lane heading as its speed, on every lane and position.", "quantifier": "every network, lane, longitudinal position and object class", "why_tests_cant": "a test on the usual x-aligned roads (lane heading 0) cannot see it; it is a statement for all lanes", "anchors": ["highway_env/road/objects.py RoadObject.make_on_lane", "highway_env/road/objects.py RoadObject.__init__"]}
{"id": "C58", "title": "A vehicle made on a lane is on that lane", "statement": "Vehicle.make_on_lane(lane, s, speed) creates a non-crashed vehicle at the centre-line point of coordinate s, with the lane heading there, with the given speed or else the lane speed limit, and assigned to an existing lane of the network.", "quantifier": "every network, lane, coordinate and speed", "why_tests_cant": "ranges over all lane geometries and coordinates", "anchors": ["highway_env/vehicle/kinematics.py Vehicle.make_on_lane"]}
{"id": "C59", "title": "Destination and destination direction", "statement": "The destination of a vehicle is the end of the last lane of its route, or its own position without a route; destination_direction is the unit vector that leads from the vehicle to its destination, and the zero vector when it is already there.", "quantifier": "every vehicle, route and network", "why_tests_cant": "ranges over all positions and routes including the degenerate ones", "anchors": ["highway_env/vehicle/kinematics.py Vehicle.destination", "highway_env/vehicle/kinematics.py Vehicle.destination_direction"]}
{"id": "C60", "title": "Copying a controlled vehicle keeps its state except a zero target speed", "statement": "ControlledVehicle.create_from copies pose, speed, target lane and route, and copies the target speed exactly when it is non-zero; a zero target speed is replaced by the current speed, so the copy of a vehicle braking to a stop keeps driving.", "quantifier": "every network and every controlled vehicle state", "why_tests_cant": "The zero target speed is one point of a continuum and the consequence only shows in later accelerations.", "anchors": ["highway_env/vehicle/controller.py:ControlledVehicle.create_from", "highway_env/vehicle/controller.py:ControlledVehicle.__init__"]}
{"id": "C61", "title": "Routes offered at an intersection are valid continuations", "statement": "get_routes_at_intersection returns, for each outgoing road of the first branching node among the ends of the first three planned roads, the current route up to that node followed by that road (or the unchanged route when there is no such node); set_route_at_intersection accepts any integer and leaves a connected route on existing roads with the same first road.", "quantifier": "all networks, routes and integer choices", "why_tests_cant": "Quantifies over all networks, routes and choices, including out-of-range and negative ones.", "anchors": ["highway_env/vehicle/controller.py:ControlledVehicle.get_routes_at_intersection", "highway_env/vehicle/controller.py:ControlledVehicle.set_route_at_intersection"]}
{"id": "C62", "title": "Predicted trajectories have the requested sampling and follow the lane", "statement": "predict_trajectory_constant_speed places the vehicle on the centre line at longitudinal coordinate s + v*t for every requested time t (no route; straight lanes: lateral offset 0 and the lane heading), and predict_trajectory returns floor(ticks per action * number of actions / ticks per saved state) states.", "quantifier": "all vehicle states, requested times, action sequences and durations", "why_tests_cant": "Quantifies over all time lists and action sequences.", "anchors": ["highway_env/vehicle/controller.py:ControlledVehicle.predict_trajectory_constant_speed", "highway_env/vehicle/controller.py:MDPVehicle.predict_trajectory"]}
{"id": "C63", "title": "An IDM vehicle told to stop does not stay stopped", "statement": "A target speed of 0 is replaced by a tiny non-zero one, so at rest on a free road the command is the full COMFORT_ACC_MAX; with the default constants and 15 frames per second the speed then cycles 0, +0.2, -0.2 m/s for ever; and a vehicle at rest closer than DISTANCE_WANTED to something ahead is commanded to reverse. It only rests when exactly at the desired distance.", "quantifier": "every unobstructed run of any length, every gap", "why_tests_cant": "limit cycles over unbounded histories", "anchors": ["highway_env/vehicle/behavior.py:IDMVehicle.acceleration", "highway_env/utils.py:not_zero"]}
{"id": "C64", "title": "Linear vehicles: exact free-road convergence, and their hidden requirement", "statement": "On a free road a LinearVehicle's speed error shrinks by exactly the factor 1 - p1*dt per frame (no saturation). Its mobil test raises AttributeError whenever the follower on the candidate lane is an obstacle or a vehicle without target speed.", "quantifier": "every run of any length; every traffic situation", "why_tests_cant": "unbounded histories", "anchors": ["highway_env/vehicle/behavior.py:LinearVehicle.acceleration", "highway_env/vehicle/behavior.py:LinearVehicle.acceleration_features", "highway_env/vehicle/behavior.py:IDMVehicle.mobil"]}
{"id": "C65", "title": "Randomized behaviours stay in range but forget the vehicle class", "statement": "randomize_behavior draws acceleration and steering parameters within the ranges around the LinearVehicle defaults for every draw; since the ranges are inherited, aggressive and defensive vehicles get the same distribution, which does not even contain their own parameters.", "quantifier": "every random draw and class", "why_tests_cant": "continuum of draws", "anchors": ["highway_env/vehicle/behavior.py:LinearVehicle.randomize_behavior", "highway_env/vehicle/behavior.py:AggressiveVehicle", "highway_env/vehicle/behavior.py:DefensiveVehicle"]}
{"id": "C66", "title": "maximum_speed never returns when there is a front vehicle", "statement": "Without front vehicle maximum_speed returns the target speed; with one it calls itself with the same argument and exhausts any recursion limit.", "quantifier": "every recursion limit, vehicle and front vehicle", "why_tests_cant": "non-termination cannot be tested", "anchors": ["highway_env/vehicle/behavior.py:IDMVehicle.maximum_speed"]}
{"id": "C67", "title": "The traffic simulation never fails and preserves its population", "statement": "On a non-empty network, when the lanes and routes vehicles refer to exist (and linear vehicles only meet controlled vehicles), act followed by step succeeds for every situation and random draw and re-establishes the same condition, so simulations of any length exist; vehicles keep their position in the list, identity, class and constants, objects and network do not change.", "quantifier": "every road, every number of frames, every draw", "why_tests_cant": "unbounded histories and random draws", "anchors": ["highway_env/road/road.py:Road.act", "highway_env/road/road.py:Road.step", "highway_env/vehicle/behavior.py:IDMVehicle.act"]}
{"id": "C68", "title": "Conflict detection is symmetric and exact for its test points", "statement": "is_conflict_possible(v1, v2) holds exactly if at one of the instants 0.25, ..., 2.75 s the predicted centres are within 5 m and the 7.5 x 1.8 m boxes intersect; the answer does not depend on the order of the arguments; the 5 m pre-check misses overlapping boxes whose centres are between 5 and 7.5 m apart; a vehicle that is not controlled makes it raise.", "quantifier": "every pair of vehicles on every network", "why_tests_cant": "continuum of poses and routes", "anchors": ["highway_env/road/regulation.py:RegulatedRoad.is_conflict_possible", "highway_env/vehicle/controller.py:ControlledVehicle.predict_trajectory_constant_speed"]}
{"id": "C69", "title": "Cadence of the road rules", "statement": "RegulatedRoad.step applies the rules exactly at the steps whose number is a multiple of the integer part of 1/(2 dt) (every 7 frames at 15 Hz), counting from the creation of the road, and raises ZeroDivisionError for every dt > 0.5.", "quantifier": "every dt and number of steps", "why_tests_cant": "unbounded histories, continuum of dt", "anchors": ["highway_env/road/regulation.py:RegulatedRoad.step"]}
{"id": "C70", "title": "Regulated simulations never fail", "statement": "From any regulated road whose vehicles are controlled and whose routes can be looked up, act and step with 0 < dt <= 0.5 can be called any number of times without an exception, whatever the random draws, and the road stays so.", "quantifier": "every network, fleet, number of frames and random draws", "why_tests_cant": "unbounded histories", "anchors": ["highway_env/road/regulation.py:RegulatedRoad.step", "highway_env/road/regulation.py:RegulatedRoad.enforce_road_rules", "highway_env/road/road.py:Road.act"]}
{"id": "C71", "title": "Episodes never fail", "statement": "From any environment whose road can be simulated and whose controlled vehicles are distinct vehicles of the road of the class of the action type, every action of the action space can be performed whatever the random draws; the environment stays so, and the population, classes and controlled vehicles are the same after any number of steps.", "quantifier": "every configuration, state, action sequence, random draws", "why_tests_cant": "unbounded episodes and populations", "anchors": ["highway_env/envs/common/abstract.py:AbstractEnv.step", "highway_env/envs/common/abstract.py:AbstractEnv._simulate", "highway_env/envs/common/action.py"]}
{"id": "C72", "title": "Range of the merge reward", "statement": "With at most one merging vehicle travelling between 0 and its target speed the merge reward is in [-1/36, 1], both ends possible; it is not bounded below when many vehicles wait on the ramp (the altruistic penalties add up); actions outside 0..4 raise KeyError; a merging vehicle with target speed 0 raises ZeroDivisionError.", "quantifier": "every road, vehicle and action", "why_tests_cant": "continuum of states and any population", "anchors": ["highway_env/envs/merge_env.py:MergeEnv._reward"]}
{"id": "C73", "title": "Goal rewards of parking, summon and lane keeping", "statement": "The parking reward is minus the square root of the weighted distance to the goal pose (weights 1/100 on x, 3/1000 on y, 0.02 on the heading's cosine and sine): never positive, zero exactly at the goal pose, speeds do not matter; success holds exactly when the weighted distance is below 0.0144. A crashed summon vehicle gets 5 less per vehicle and is never a success. Lane keeping's reward is at most 1, 1 exactly on the centre line, at least 3/4 exactly when inside the lane; before a reset it raises AttributeError.", "quantifier": "every pose, goal and number of vehicles", "why_tests_cant": "continuum of poses", "anchors": ["highway_env/envs/parking_env.py:ParkingEnv.compute_reward", "highway_env/envs/parking_env.py:ParkingEnv._is_success", "highway_env/envs/summon_env.py:SummonEnv.compute_reward", "highway_env/envs/lane_keeping_env.py:LaneKeepingEnv._reward"]}
{"id": "C74", "title": "The TimeToCollision observation is a window of the grid", "statement": "The observation has shape 3 x 3 x columns: speed levels around the observer's (the ends are repeated) by lanes around its own (missing lanes read 1); all entries are in [0,1]; before the road exists it is zeros of the same shape. With a single speed level only two layers are returned.", "quantifier": "every road, traffic, observer and frequency", "why_tests_cant": "unbounded number of vehicles, lanes and columns", "anchors": ["highway_env/envs/common/observation.py:TimeToCollisionObservation.observe"]}
{"id": "C75", "title": "Kinematics normalisation is fixed by the first observation", "statement": "When no ranges are configured, the ranges used by an observation object are those computed for the road the observer is on at the first observation, in all later observations whatever roads come next; and beyond 5 times the maximal speed the abscissa of the observer itself always reads 1.", "quantifier": "every sequence of scenes observed, every network", "why_tests_cant": "unbounded sequences of scenes", "anchors": ["highway_env/envs/common/observation.py:KinematicObservation.normalize_obs"]}
{"id": "C76", "title": "Multi-agent observations: one per agent, from its own point of view", "statement": "A multi-agent observation is the tuple, in the order of the controlled vehicles, of the observation each of them would make alone with its own ranges, and it fails only if one of these fails.", "quantifier": "every number of agents and every scene", "why_tests_cant": "unbounded number of agents", "anchors": ["highway_env/envs/common/observation.py:MultiAgentObservation.observe"]}
{"id": "C77", "title": "Goal observations agree with the goal reward", "statement": "A KinematicsGoal observation gives the features of the vehicle (twice, as observation and achieved goal) and of the landmark divided by the scales, a landmark having no velocity; in the parking configuration it never fails and the reward is computed from exactly these vectors; a \"heading\" feature always fails since landmarks have none.", "quantifier": "every vehicle, goal, feature list and scales", "why_tests_cant": "every state", "anchors": ["highway_env/envs/common/observation.py:KinematicsGoalObservation.observe", "highway_env/road/objects.py:RoadObject.to_dict", "highway_env/envs/parking_env.py:ParkingEnv.compute_reward"]}
{"id": "C78", "title": "Distant vehicles do not affect the Kinematics observation", "statement": "Removing from the road a vehicle at the perception distance or beyond does not change the observation (or its failure).", "quantifier": "every road population and configuration", "why_tests_cant": "unbounded populations", "anchors": ["highway_env/envs/common/observation.py:KinematicObservation.observe", "highway_env/road/road.py:Road.close_vehicles_to"]}
{"id": "C79", "title": "One step of the dynamic bicycle model", "statement": "A step of dt moves a BicycleVehicle by dt times its body velocity (longitudinal and lateral) turned by its heading, turns it by the yaw rate limited to one turn per second, and above 1 m/s changes lateral speed and yaw rate according to the slip angles at the two axles; it never fails on a network with lanes, and speeds above 15 m/s come down to it geometrically.", "quantifier": "every state, command and time step", "why_tests_cant": "every real state", "anchors": ["highway_env/vehicle/dynamics.py:BicycleVehicle.step", "highway_env/vehicle/dynamics.py:BicycleVehicle.clip_actions", "highway_env/vehicle/dynamics.py:BicycleVehicle.derivative"]}
{"id": "C80", "title": "Bicycle: straight driving and low-speed damping", "statement": "Without steering, lateral speed and yaw rate a vehicle that never reverses at 1 m/s or more stays on its line with its heading, for any number of steps and accelerations; while below 1 m/s yaw rate and lateral speed die out geometrically whatever the commands.", "quantifier": "every sequence of commands of any length", "why_tests_cant": "unbounded histories", "anchors": ["highway_env/vehicle/dynamics.py:BicycleVehicle.step", "highway_env/vehicle/dynamics.py:BicycleVehicle.derivative"]}
{"id": "C81", "title": "Bicycle: stability of the lateral integration depends on speed and time step", "statement": "A vehicle coasting with a lateral speed but no yaw rate loses it geometrically when its speed exceeds 30 dt (2 m/s at 15 Hz); between 1 m/s and 30 dt the integration is unstable: any non-zero lateral speed, however small, grows beyond a fixed threshold without any command.", "quantifier": "every initial lateral speed, speed and time step", "why_tests_cant": "limits over unbounded numbers of steps", "anchors": ["highway_env/vehicle/dynamics.py:BicycleVehicle.step", "highway_env/vehicle/dynamics.py:BicycleVehicle.derivative"]}
{"id": "C82", "title": "Every environment can be reset and then never fails", "statement": "reset() of every environment (highway, two-way, merge, parking, summon, roundabout, intersection) succeeds for all random draws whenever the vehicle classes fit together and the sizes make sense, starts at time 0 with the configured number of distinct controlled vehicles, all on the road and of the action type's class; after that no sequence of valid actions ever makes step() raise, even if other environments change class attributes in between. The intersection with continuous actions always fails with AttributeError, and summon with more than 15 parked vehicles fails with IndexError.", "quantifier": "every configuration satisfying the stated conditions, every random draw, every action sequence, every interleaving with other environments' class assignments", "why_tests_cant": "ranges over all random draws, histories and configurations", "anchors": ["highway_env/envs/*.py:reset", "highway_env/envs/common/abstract.py:AbstractEnv.step", "highway_env/envs/intersection_env.py:IntersectionEnv._make_vehicles"]}
{"id": "C83", "title": "A copy behaves exactly like the original", "statement": "A copy of an environment has all the attributes of the original and none of its objects. Under corresponding random draws and the same actions, every step and every whole episode of the copy has the same outcome as that of the original: the same exception, or environments with the same attributes; they give the same rewards, end at the same time, allow the same actions and are observed alike. Nothing depends on object identities.", "quantifier": "every environment state, every scenario, every action sequence, every random draws", "why_tests_cant": "the claim relates two executions of unbounded length for all states", "anchors": ["highway_env/envs/common/abstract.py:AbstractEnv.__deepcopy__", "highway_env/envs/common/abstract.py:AbstractEnv.step", "highway_env/road/road.py:Road.step"]}
{"id": "C84", "title": "What the modified copies contain", "statement": "simplify keeps the ego vehicle first, then exactly the vehicles closer than 180 m, nearest along the ego's lane first (with several agents, distant agents stay controlled but leave the road). change_vehicles re-creates every vehicle but the ego one in the given class at the same place with the same aims, uncrashed and without history (other agents are replaced too); it fails with AttributeError for classes with aims on vehicles without. set_preferred_lane does nothing for None and 0, fails with TypeError if an IDM vehicle has no route, and otherwise rewrites the lanes of the routes and lets those vehicles impose 1000 m/s2 of braking. set_route_at_intersection accepts integers and 'random' but fails on other strings. set_vehicle_field also changes the ego vehicle. call_vehicle_method puts None on the road for methods that return nothing. randomize_behaviour only changes linear vehicles, within their ranges.", "quantifier": "every environment state and every argument", "why_tests_cant": "for all scenes, including multi-agent ones, and all arguments", "anchors": ["highway_env/envs/common/abstract.py:AbstractEnv.simplify", "highway_env/envs/common/abstract.py:AbstractEnv.change_vehicles", "highway_env/envs/common/abstract.py:AbstractEnv.set_preferred_lane", "highway_env/envs/common/abstract.py:AbstractEnv.set_route_at_intersection", "highway_env/envs/common/abstract.py:AbstractEnv.set_vehicle_field", "highway_env/envs/common/abstract.py:AbstractEnv.call_vehicle_method", "highway_env/envs/common/abstract.py:AbstractEnv.randomize_behaviour"]}
{"id": "C85", "title": "How vehicles are spaced when a highway episode starts", "statement": "After reset of the highway scenario (positive spacing and density) the vehicles are lined up in order of creation, controlled vehicles first, all with heading 0 on one of the lanes; each is ahead of the previous one, whatever their lanes, by 90 to 110 % of the nominal headway of its spacing (or inverse density), speed and number of lanes. So the first controlled vehicle starts behind everybody. If 90 % of the smallest nominal headway exceeds 5 m - e.g. up to four lanes and density at most 2 - no two vehicles start in contact; nothing enforces it: on a single lane with density 9 or more consecutive vehicles always start one inside the other.", "quantifier": "every configuration of lanes, vehicles, spacing and density, every random draws", "why_tests_cant": "random placement with unboundedly many vehicles and every configuration", "anchors": ["highway_env/vehicle/kinematics.py:Vehicle.create_random", "highway_env/envs/highway_env.py:HighwayEnv._create_vehicles"]}
{"id": "C86", "title": "Where the lanes of the provided networks join", "statement": "In the intersection every lane starts where the previous one ends and in the same direction, through the whole crossing; only at the outer ends is the way back 4 m aside in the opposite direction. The two lanes of the roundabout's ring continue themselves seamlessly all the way round; access roads join their entry curves and exit curves the roads out, but neither entry nor exit curves meet the ring: at least 1.5 m are missing. In the merge scenario the highway lanes and the ramp are continuous; vehicles leaving the ramp are sent to the third lane of the merging section, which has no continuation. In lane keeping the link ends more than 135 m from the lane it is connected to. Along any route whose lanes join, the predicted position is a continuous function of the travelled distance.", "quantifier": "every pair of connected lanes of the networks, every unbroken route and every distance", "why_tests_cant": "continuity quantifies over all real positions and all pairs of lanes", "anchors": ["highway_env/envs/intersection_env.py:IntersectionEnv._make_road", "highway_env/envs/roundabout_env.py:RoundaboutEnv._make_road", "highway_env/envs/merge_env.py:MergeEnv._make_road", "highway_env/envs/lane_keeping_env.py:LaneKeepingEnv._make_road", "highway_env/road/road.py:RoadNetwork.position_heading_along_route", "highway_env/road/road.py:RoadNetwork.next_lane"]}
{"id": "C87", "title": "Identification of driver parameters from observations", "statement": "Given features and outputs, the estimated parameter is the unique minimiser of the regularised squared error; the confidence radius is always a number. If the outputs follow exactly from a parameter of bounded coordinates, that parameter lies in the confidence ellipsoid, and the data set is never declared inconsistent: a model that matches the observed driver is never discarded. Inconsistent data can be rejected. The estimate and every vertex of the confidence polytope respect the prior parameter box; but the polytope is turned by the inverse of the eigenvector matrix and may exclude the true parameter even with exact data.", "quantifier": "every data set, dimension, parameter and parameter box; linear algebra routines meeting their contract", "why_tests_cant": "it quantifies over all data sets and parameters of every dimension", "anchors": ["highway_env/utils.py:confidence_ellipsoid", "highway_env/utils.py:confidence_polytope", "highway_env/utils.py:is_valid_observation", "highway_env/utils.py:is_consistent_dataset"]}
{"id": "C88", "title": "Interval predictions enclose the possible trajectories", "statement": "For a vehicle following a straight lane with positive speeds, the interval observer encloses every motion of a driver whose acceleration and steering parameters lie in the given boxes, behind any possible front vehicle and with any bounded perturbation, over any number of steps, provided headings stay between -pi and 3pi/2 and within half a turn of the lane. The default prediction mode only propagates the two extreme corners: its first step from a certain state encloses, but later steps can lose possible motions and even become empty, and after a full turn the observer itself loses them. A crashed vehicle's interval is its state before the step.", "quantifier": "every road, front vehicle, parameter in the boxes, perturbation, motion in the interval and number of steps", "why_tests_cant": "it quantifies over a continuum of parameters, perturbations and states", "anchors": ["highway_env/vehicle/uncertainty/prediction.py:IntervalVehicle.observer_step", "highway_env/vehicle/uncertainty/prediction.py:IntervalVehicle.partial_observer_step", "highway_env/vehicle/uncertainty/prediction.py:IntervalVehicle.step", "highway_env/vehicle/uncertainty/prediction.py:IntervalVehicle.get_front_interval"]}
{"id": "C89", "title": "Worst-case collisions with uncertain vehicles", "statement": "An agent vehicle and an uncertain vehicle are checked at the possible position nearest to the agent. In parallel traffic the check is exact: they crash, at the lower of their speeds, if and only if the footprints touch for some possible position. Whatever the headings, an agent whose centre is within 0.9 m of a possible position crashes. In crossing traffic a possible collision can be missed because only the nearest position is tested. Other vehicles are checked at the predicted position only.", "quantifier": "every pair of vehicles, headings, interval of positions", "why_tests_cant": "it quantifies over all possible positions in the interval", "anchors": ["highway_env/vehicle/uncertainty/prediction.py:IntervalVehicle.check_collision", "highway_env/utils.py:rotated_rectangles_intersect"]}
{"id": "C90", "title": "IDM vehicles do not run into what is ahead", "statement": "An IDMVehicle with default parameters and lane changes disabled, driving centred on a straight lane at up to 30 m/s (target speed at most 30) with a frame of at most 1/15 s, whose front neighbour never reverses and never brakes harder than 6 m/s2, and which starts at least 5.4 m behind (centre to centre) plus the difference of the two full-braking distances, stays more than 5 m (a vehicle length) behind at every frame of runs of any length. Alone on a one-lane road with a stopped obstacle ahead and room to brake, it never crashes.", "quantifier": "all lanes, initial states, leader motions, numbers of frames, time steps up to 1/15 s and random draws", "why_tests_cant": "a closed-loop safety invariant over arbitrary leaders and unbounded time; tests only drive a few scripted situations", "anchors": ["highway_env/vehicle/behavior.py:IDMVehicle.act", "highway_env/vehicle/behavior.py:IDMVehicle.acceleration", "highway_env/vehicle/behavior.py:IDMVehicle.desired_gap", "highway_env/vehicle/kinematics.py:Vehicle.step", "highway_env/vehicle/kinematics.py:Vehicle.check_collision", "highway_env/road/road.py:Road.act", "highway_env/road/road.py:Road.step", "highway_env/road/road.py:Road.neighbour_vehicles"]}
{"id": "C91", "title": "Linear vehicles behind something", "statement": "LinearVehicle accelerates by p1 (target - v) minus p2 times the closing speed (if closing in) minus p3 times the shortfall to the safe distance (DISTANCE_WANTED + v TIME_WANTED): something ahead only slows it down and has no effect exactly when it is not slower and at or beyond the safe distance. Behind a leader at a constant lower speed than the target the distance at which it keeps that speed is p1/p3 (target - v) shorter than the safe distance; for AggressiveVehicle with a target of 30 m/s this is inside the vehicle ahead: stopped bumper to bumper it still accelerates, while the linear and defensive defaults brake.", "quantifier": "all vehicles, leaders, lanes and parameter values", "why_tests_cant": "the law has to hold for all gaps and speeds; the aggressive defect only shows for particular parameters at a standstill", "anchors": ["highway_env/vehicle/behavior.py:LinearVehicle.acceleration", "highway_env/vehicle/behavior.py:LinearVehicle.acceleration_features", "highway_env/vehicle/behavior.py:AggressiveVehicle", "highway_env/vehicle/behavior.py:DefensiveVehicle"]}
{"id": "C92", "title": "Route hypotheses of a multiple-model vehicle", "statement": "A MultipleModelVehicle that collects data keeps a list of (route, data) hypotheses. Without a planned route it never forms any. At each act every route proposed by get_routes_at_intersection becomes (or already is) a hypothesis, with unknown lanes read as lane 0; hypotheses already there keep their data and their routes are at most extended; then exactly those whose recorded lateral data pass is_consistent_dataset survive, each with one more sample, and new ones start with one sample. The hypothesis whose first road is, at each act, the lane the vehicle aims for is never rejected, over any history, if the vehicle's steering gains are within STEERING_RANGE. However the roads of the hypotheses are advanced before the vehicle changes its target lane, so a vehicle that does follow its route can lose the right hypothesis at the end of a road, and at the end of the last road of its route (no intersection ahead) act raises unless a hypothesis is rejected. Besides the route, hypotheses never influence the driving. assume_model_is_valid(k) returns a copy that has the route of hypothesis min(k, n-1) and aims for its first road, or a plain copy when there is no hypothesis.", "quantifier": "every network, every history of road and vehicle states at the calls of act, every reachable list of hypotheses, every index, every linear algebra routine meeting numpy's contract in dimension 2", "why_tests_cant": "the claim ranges over unbounded histories and arbitrary networks and real-valued states; tests sample a few of them, and the failures at road changes need specific timings", "anchors": ["highway_env/vehicle/uncertainty/estimation.py:MultipleModelVehicle.act", "highway_env/vehicle/uncertainty/estimation.py:MultipleModelVehicle.update_possible_routes", "highway_env/vehicle/uncertainty/estimation.py:MultipleModelVehicle.collect_data", "highway_env/vehicle/uncertainty/estimation.py:MultipleModelVehicle.assume_model_is_valid", "highway_env/vehicle/behavior.py:LinearVehicle.add_features", "highway_env/vehicle/behavior.py:LinearVehicle.steering_features"]}
{"id": "C93", "title": "Interval prediction through LPV predictors", "statement": "An IntervalVehicle predicts, at each step, the interval of its state through two linear parameter-varying predictors. On a straight lane, with its target lane fixed, a front vehicle (if any) that does not call for gap control, a box of longitudinal gains that is nonnegative and small relative to the step, and a mean lateral dynamics that is oscillating (as the defaults are), after any number of steps the interval contains the position, speed and heading relative to the lane of every linear driver whose gains (possibly different at each step) lie in the boxes and whose lateral dynamics is the linearised one, perturbed by up to 1 m/s along and 0.5 m/s across the lane, provided it started at the lower corner of the initial interval. Beyond this the prediction is not an enclosure: the upper bounds of the initial speed and heading never have any influence, so a vehicle that may be faster than its target speed leaves the interval at once; the lateral dynamics has a constant lateral speed in place of the vehicle's, so a vehicle driving straight at speed * sin h > h + 1/2 is outside its own predicted interval after one step; the reported heading is relative to the lane, not absolute; the braking of a vehicle too close to a faster front vehicle is not predicted; and at a change of lane the heading interval is shifted in the wrong direction, ending twice the difference of the headings away. A RegressionVehicle without data raises (TypeError when no data are collected, KeyError when they are empty), and the interval of a crashed vehicle is its exact state before the step. The interval itself is read only at the first step and at a change of lane: while the target lane stays the same the prediction goes on from its own state, whatever the interval is in between.", "quantifier": "every straight lane, every number of steps, every sequence of road states with the same target lane, every box of parameters with nonnegative gains, every choice of gains at each step, every eigenvector routine meeting numpy's contract", "why_tests_cant": "an enclosure has to hold for a continuum of gains chosen anew at each of unboundedly many steps; a simulation only tries some drivers", "anchors": ["highway_env/vehicle/uncertainty/prediction.py:IntervalVehicle.predictor_step", "highway_env/vehicle/uncertainty/prediction.py:IntervalVehicle.predictor_init", "highway_env/vehicle/uncertainty/prediction.py:IntervalVehicle.longitudinal_matrix_polytope", "highway_env/vehicle/uncertainty/prediction.py:IntervalVehicle.lateral_matrix_polytope", "highway_env/vehicle/uncertainty/prediction.py:IntervalVehicle.parameter_box_to_polytope", "highway_env/interval.py:LPV", "highway_env/vehicle/uncertainty/estimation.py:RegressionVehicle"]}
{"id": "C94", "title": "The lane-keeping environment", "statement": "In the lane-keeping environment with an agent that only steers (any frequencies, ranges and clipping), every reset puts a BicycleVehicle 50 m along the segment from (50,50) to (115,15), 4 m beside it, aligned with it, at 8.3 m/s. From there every sequence of actions with at least one coordinate is accepted for ever: step never fails, never returns a terminal state, the vehicle is never crashed and keeps 8.3 m/s, env.time counts frames, but env.steps stays 0. The reward of a step is 1 - (offset/10)^2 <= 1, where offset is the distance after the step to the segment as long as every step so far started within 5 m of the segment's road, and from the first step that starts off it for ever the vertical distance to the sine curve. The observation returned by step describes (within the noise) the vehicle before the simulation of that step, with the new steering in the derivative; its reference is the point of the sine curve at the vehicle's abscissa, but on the segment the reference ordinate is not that of the centre line unless the vehicle is on it. The recorded trajectory is never cleared by reset. With the default configuration and zero actions the reward is 0.84 for exactly 35 steps, after which it refers to the sine curve. A step before the first explicit reset raises AttributeError, a configuration with another vehicle class cannot be constructed or reset, and a closed environment still runs one frame per step.", "quantifier": "every steering-only configuration, every sequence of actions and of noise values, every session of resets and steps, of any length", "why_tests_cant": "the statement ranges over all action sequences of unbounded length and all noise values of a continuous control task", "anchors": ["highway_env/envs/lane_keeping_env.py:LaneKeepingEnv", "highway_env/envs/common/abstract.py:AbstractEnv._simulate", "highway_env/envs/common/observation.py:AttributesObservation", "highway_env/vehicle/dynamics.py:BicycleVehicle"]}
{"id": "C95", "title": "The gym loop", "statement": "For the highway, merge, roundabout, intersection, parking and summon environments with Kinematics, TimeToCollision or KinematicsGoal observations (one observer, or one per controlled vehicle) that suit the environment and an action type the reward accepts: reset never raises, and after it any sequence of actions of the action space can be stepped for ever without an exception, whatever the random draws and whatever other environments of the package did in the same process to the shared class attributes (the merge needs them as imported). Every step returns one observation per observer, each belonging to its space (number and length of rows, entries in [-1,1]; TimeToCollision grids of 3 x 3 x horizon with entries 0, 1/2, 1; goal dictionaries); a reward in the range of the environment ([0,1] for highway, two-way, roundabout and a normalised intersection; never positive for parking and summon); done exactly when the condition of the environment holds of the scene after the step (crash, time limit counted in policy steps, off-road, position, arrival, success); and info with the ego's current speed and crash state, the action given, and the cost. Crashes are permanent: once info reports a crash every later step does, with done=True; in the two-way, the roundabout and the highway without offroad_terminal, done stays True once it is. In the two-way environment a step raises ZeroDivisionError exactly when it leaves the ego vehicle on the opposite road; with continuous actions the first step of two-way and merge raises AttributeError, and that of the roundabout ValueError if both accelerations and steering are controlled.", "quantifier": "every configuration fitting the environment, every sequence of actions of any length, all random draws, shuffles and every state of the class attributes left by any history of other environments", "why_tests_cant": "whole episodes of unbounded length with arbitrary actions, draws and interference are quantified over; tests play a few", "anchors": ["highway_env/envs/common/abstract.py:AbstractEnv.reset", "highway_env/envs/common/abstract.py:AbstractEnv.step", "highway_env/envs/common/observation.py:KinematicObservation", "highway_env/envs/common/observation.py:TimeToCollisionObservation", "highway_env/envs/common/observation.py:KinematicsGoalObservation", "highway_env/envs/common/observation.py:MultiAgentObservation", "highway_env/envs/two_way_env.py:TwoWayEnv._reward", "highway_env/envs/roundabout_env.py:RoundaboutEnv._reward"]}
{"id": "C96", "title": "Agents of the intersection", "statement": "Along every episode of the intersection environment info['agents_rewards'] and info['agents_dones'] have one entry per controlled vehicle, in their order, although vehicles are removed and spawned before they are computed: entry j is the reward of vehicle j (1 on arrival, else collision reward plus 1 at top speed, normalised if configured), and it is done exactly when it crashed, the time limit passed or it arrived. The reward returned is the mean of the entries. done is True as soon as one agent crashed and whenever all agents are done, and only if some agent is done; with one agent, reward and done are its entries.", "quantifier": "every configuration with 1 to 4 controlled vehicles, every sequence of actions, all draws, every step of every episode", "why_tests_cant": "all multi-agent episodes of any length are covered, with arbitrary spawning and clearing in between", "anchors": ["highway_env/envs/intersection_env.py:IntersectionEnv.step", "highway_env/envs/intersection_env.py:IntersectionEnv._reward", "highway_env/envs/intersection_env.py:IntersectionEnv._agent_is_terminal", "highway_env/envs/intersection_env.py:IntersectionEnv._is_terminal"]}
{"id": "C97", "title": "Goal environments and compute_reward", "statement": "Along every episode of the parking and summon environments, the desired goal of every observation is that of the landmark placed at reset; the reward returned is the sum over the observations of compute_reward(achieved_goal, desired_goal) called right after the step; info['is_success'] has one entry per observation, True exactly when that value exceeds -0.12; and done is True exactly at the time limit, after a crash of a controlled vehicle, or when all entries of is_success are True. Recomputing a stored transition later gives the same reward in the parking environment, but in summon it depends on the crash state of the ego vehicle at that moment: 5 less after a crash.", "quantifier": "every configuration, action sequence, draw and step of the goal environments", "why_tests_cant": "the contract hindsight-relabelling agents rely on is about every transition of every episode", "anchors": ["highway_env/envs/parking_env.py:ParkingEnv.compute_reward", "highway_env/envs/parking_env.py:ParkingEnv.step", "highway_env/envs/summon_env.py:SummonEnv.compute_reward", "highway_env/envs/parking_env.py:ParkingEnv._is_terminal"]}
{"id": "C98", "title": "The initial scenes", "statement": "reset puts every vehicle and object at the place the environment defines. Two-way: the agent at 30 m on the right lane at 30 m/s, three vehicles ahead on its lane, two oncoming on the other lane at about 500-600 m, driving towards it on a lane that is the left lane travelled backwards, none of the traffic changing lanes. Merge: the agent at 30 m in the right lane at 30 m/s, three vehicles around it, one on the ramp with target speed 30 m/s, and an obstacle at the end of the merging lane. Parking: the agents stand still in the middle of the lot 20 m apart, and the goal is the centre of one of the 30 spots, in the direction of its lane. Summon: the agent on the last spot of the lower row, the goal outside the lot, the others parked on successive spots or driving slowly between the rows, those within 20 m of the agent being dropped - except that after each dropped vehicle the next one is not inspected: nobody is within 20 m if no two consecutive vehicles are (ten parked vehicles or fewer), but with fifteen a vehicle can stand exactly where the agent stands. Roundabout: the agent comes from the south at 8 m/s (bound for the north exit if it plans), one vehicle enters from the west with the configured destination, two are on the ring, one comes from the east, each with a planned route. Intersection: the k-th agent is on the k-th arm, about 60 m after its beginning and 51 m before the centre, driving towards it at 10 m/s with target speed 9, its route planned to the configured or drawn destination.", "quantifier": "all random draws, every configuration fitting the environment, every state of the class attributes", "why_tests_cant": "the scene depends on dozens of random draws, on the network geometry and on a list mutated while it is iterated; tests look at a few seeds", "anchors": ["highway_env/envs/two_way_env.py:TwoWayEnv._make_vehicles", "highway_env/envs/two_way_env.py:TwoWayEnv._make_road", "highway_env/envs/merge_env.py:MergeEnv._make_vehicles", "highway_env/envs/merge_env.py:MergeEnv._make_road", "highway_env/envs/parking_env.py:ParkingEnv._create_vehicles", "highway_env/envs/summon_env.py:SummonEnv._create_vehicles", "highway_env/envs/roundabout_env.py:RoundaboutEnv._make_vehicles", "highway_env/envs/intersection_env.py:IntersectionEnv._make_vehicles"]}
{"id": "C99", "title": "Controlled vehicles reach the lane they aim for", "statement": "A controlled vehicle driving at 20 to 40 m/s (with target speeds in that range) next to a straight target lane - any aligned offset up to 5 m, or any combination of lateral offset y and relative heading psi with y^2+12.5*y*psi+150*psi^2 <= 25 - comes closer to its centre line at every step of dt <= 1/10 s: that quantity shrinks at least by the factor 1-0.8*dt per step, so offset and relative heading end up and stay below any tolerance, with a number of steps depending on dt and the tolerance only. The vehicle keeps its target lane up to the end of the road when it is left alone (IDLE or no action); at 15 steps per second a change to the adjacent lane 4 m away is on the new lane (within 2 m of its centre) after 32 steps and within 0.5 m after 82. IDM traffic steers by the same law. At any speed and distance, crashed or not, with dt <= 1/5 s, a vehicle whose heading is within 45 degrees of its target lane's direction stays so.", "quantifier": "all straight lanes, initial offsets and headings in the stated region, speeds in 20..40 m/s varying in any way under the speed commands, numbers of steps, time steps up to 1/10 s", "why_tests_cant": "convergence of a closed non-linear control loop (two arcsines, clipping, discrete integration) from a continuum of states over unboundedly many steps; a test can simulate finitely many trajectories", "anchors": ["highway_env/vehicle/controller.py:ControlledVehicle.steering_control", "highway_env/vehicle/controller.py:ControlledVehicle.act", "highway_env/vehicle/kinematics.py:Vehicle.step"]}
{"id": "C100", "title": "The keyboard drives the controlled vehicle", "statement": "With meta-actions, pressing right, left, down, up in the window does exactly what env's own action FASTER, SLOWER, LANE_RIGHT, LANE_LEFT does; releases, other keys and arrows of an axis that is not part of the action do nothing - except the up arrow when lane changes are not among the actions, which raises KeyError. With continuous actions the arrows set pedals and wheel to +-0.7 (up/down, right/left), and the release of either key of an axis puts that axis to zero even if the other key is still held; after any sequence of events the vehicle's acceleration and steering are the affine images of these positions. With several agents the keyboard has no effect. Every on-screen render handles all waiting events in order, with or without manual_control; off screen none is handled. Under manual_control the result of step does not depend on the agent's action.", "quantifier": "all event sequences, environment states, action configurations (axes, ranges, clipping), random draws", "why_tests_cant": "any interleaving of presses and releases from any state with any configuration; a unit test has no display and tries a few keys", "anchors": ["highway_env/envs/common/graphics.py:EventHandler.handle_event", "highway_env/envs/common/graphics.py:EventHandler.handle_discrete_action_event", "highway_env/envs/common/graphics.py:EventHandler.handle_continuous_action_event", "highway_env/envs/common/graphics.py:EnvViewer.handle_events"]}
{"id": "C101", "title": "World positions land on the right pixels", "statement": "On the window, a world position is drawn at the pixel containing its exact place (scaling times the offset from the window's top-left corner, rounded towards that corner, error below one pixel per axis); the window follows the observed vehicle, which always sits at the configured fraction of the width and height; a position counts as visible exactly when its pixel is less than 50 pixels outside the window. Every vehicle that is partly inside the window is drawn as long as the scaling is at most 18 pixels per metre; at 5.5*1.3^5 = 20.4 pixels per metre (O pressed five times on the default view) some vehicles that are still partly inside are not drawn. O and L multiply the scaling by 1.3 and 1/1.3, K and M shift the followed vehicle by +-0.1 of the width, after any sequence of events; nothing else changes the view.", "quantifier": "all positions, scalings, window sizes, centrings, vehicle headings, event sequences", "why_tests_cant": "ranges over a continuum of positions, headings and zooms and unboundedly long key sequences", "anchors": ["highway_env/road/graphics.py:WorldSurface.pix", "highway_env/road/graphics.py:WorldSurface.pos2pix", "highway_env/road/graphics.py:WorldSurface.is_visible", "highway_env/road/graphics.py:WorldSurface.move_display_window_to", "highway_env/road/graphics.py:WorldSurface.handle_event", "highway_env/vehicle/graphics.py:VehicleGraphics.display"]}
{"id": "C102", "title": "Lane markings are drawn where the lanes are", "statement": "The markings drawn on a side of a lane lie half a width from its centre line, between the two ends of the lane: stripes are the segments [5k, 5k+3] and the pieces of a continuous curve the segments [5k, 5k+5] of the lane's own longitudinal coordinate cut to the lane (so they do not slide as the camera moves), pieces of at most 1.5 m being left out. On straight and sine lanes every marking that reaches the window is drawn if the window's diagonal plus 8.5 m (in pixels) is at most its width plus height - true of the default windows up to 10 pixels per metre; an arc is drawn completely if its length plus half a turn plus 8.5 m is at most (width+height)/scaling. The drawing of a road is exactly these markings for both sides of each lane of the network.", "quantifier": "all lanes, widths, line types, networks, camera positions, scalings, window sizes", "why_tests_cant": "ranges over all lane geometries and camera positions", "anchors": ["highway_env/road/graphics.py:LaneGraphics.display", "highway_env/road/graphics.py:LaneGraphics.striped_line", "highway_env/road/graphics.py:LaneGraphics.continuous_curve", "highway_env/road/graphics.py:LaneGraphics.continuous_line", "highway_env/road/graphics.py:LaneGraphics.draw_stripes", "highway_env/road/graphics.py:RoadGraphics.display"]}
{"id": "C103", "title": "Vehicles and objects are drawn at their place, heading and colour", "statement": "Rotating an image about its centre and blitting it keeps the centre at the given pixel and turns it by the vehicle's heading, so the corners of the drawn rectangle are within 4 pixels of the corners of the vehicle (headings of at most 2 degrees are drawn as 0); the colour is the vehicle's own colour if it has one, else red if crashed, else by class; obstacles turn from yellow to red and landmarks from blue to green when hit. A frame is the road, then the objects, then the trails, then the vehicles in road order. Drawing never fails, except that showing trajectories with a simulation frequency below 3 raises ValueError. Trails show the snapshots of every third of a second (in whole frames) of the last two seconds.", "quantifier": "all vehicles, headings, scalings, roads, histories, frequencies", "why_tests_cant": "ranges over a continuum of headings, positions and zooms and over arbitrary roads and histories", "anchors": ["highway_env/vehicle/graphics.py:VehicleGraphics.display", "highway_env/vehicle/graphics.py:VehicleGraphics.blit_rotate", "highway_env/vehicle/graphics.py:VehicleGraphics.get_color", "highway_env/vehicle/graphics.py:VehicleGraphics.display_history", "highway_env/road/graphics.py:RoadObjectGraphics.display", "highway_env/road/graphics.py:RoadGraphics.display_traffic", "highway_env/road/graphics.py:RoadGraphics.display_road_objects", "highway_env/envs/common/graphics.py:EnvViewer.display"]}
{"id": "C104", "title": "What the window and the images show", "statement": "Without input events, or off screen, rendering never changes the simulation: step and render leave the environment as without a viewer, and never fail (from 3 frames per second). As long as render('human') is not used, every image returned by render('rgb_array') is of the state at the time of the call, whatever steps, resets, closings and key presses came before. With a window: after render, a step leaves the window showing the new state; but the window is only redrawn by a step that immediately follows a call of render - after render('human') and a step, any further steps and resets leave the next call of render showing (or returning) the old state; after a reset the first call of render still shows the previous episode; a window closed and reopened after render('human') is black until a step is made. Closing the window with the mouse ends the episode, stops a running step at that frame, and makes a call of render('rgb_array') fail. Shifting the view with K and M persists when the window is closed and reopened, zooming does not. Each new image is centred on the ego vehicle, at the configured fraction of the window (on the origin of the world if there is no vehicle).", "quantifier": "all sessions of steps, renders in both modes, resets, closings, event sequences and random draws", "why_tests_cant": "an invariant over unboundedly long interactive sessions; the stale frames only appear for particular orders of calls", "anchors": ["highway_env/envs/common/abstract.py:AbstractEnv.render", "highway_env/envs/common/abstract.py:AbstractEnv._automatic_rendering", "highway_env/envs/common/abstract.py:AbstractEnv._simulate", "highway_env/envs/common/abstract.py:AbstractEnv.close", "highway_env/envs/common/abstract.py:AbstractEnv.reset", "highway_env/envs/common/graphics.py:EnvViewer.display", "highway_env/envs/common/graphics.py:EnvViewer.handle_events", "highway_env/envs/common/graphics.py:EnvViewer.get_image"]}
{"id": "C105", "title": "Each step returns the reward and the observation of the state it leads to", "statement": "Along every trajectory, whatever the configuration, actions and random draws: the reward of a step is the documented function of the ego vehicle after it (highway: collision, lane and speed terms mapped to [0,1], 0 off the road; roundabout: collision, speed level and a lane-change penalty for actions 0 and 2; merge: the same plus lane, and the slowness of merging vehicles; two-way: speed level and lane aimed at). Kinematics observations at reset and at each step show, for each observed vehicle, itself and then the closest vehicles within 180 m on the road it has reached, in order, padded with zeros, scaled by ranges that are fixed at reset for the whole episode (those configured, or else those of the road and of the speed limit at that time, even if the vehicle later moves to a wider road); at the intersection the road shown is the one before vehicles leave and enter at the end of the step. Time-to-collision observations show the speed levels and lanes around the ego vehicle's own, with the period of the policy as time step.", "quantifier": "all environments, configurations, class-attribute histories, actions, random draws, trajectory lengths", "why_tests_cant": "an invariant over unboundedly long trajectories relating every returned value to the state", "anchors": ["highway_env/envs/common/abstract.py:AbstractEnv.step", "highway_env/envs/common/abstract.py:AbstractEnv.reset", "highway_env/envs/common/observation.py:KinematicObservation.observe", "highway_env/envs/common/observation.py:TimeToCollisionObservation.observe", "highway_env/envs/roundabout_env.py:RoundaboutEnv._reward", "highway_env/envs/merge_env.py:MergeEnv._reward", "highway_env/envs/two_way_env.py:TwoWayEnv._reward", "highway_env/envs/highway_env.py:HighwayEnv._reward"]}
{"id": "C106", "title": "What a configuration says", "statement": "The configuration of an environment is the default one of its class with the options of every dictionary given to the constructor and to configure, the last one winning: an option given last with some value has this value, an option never given has its default, and no option of the class ever disappears. Options are replaced as a whole: nothing of the default inside 'action' or 'observation' survives a partial one (a roundabout given {'type': 'Kinematics', 'vehicles_count': 10} observes relative coordinates with other ranges). Options outside the list that a class reads (display options, misspelt names), and unknown arguments of action and observation types, never have any influence on resets and steps, whatever they are. A flag counts as off exactly when its value is None, False, a zero, an empty string or an empty container; the display options that are not given have the documented default values.", "quantifier": "all sequences of dictionaries, all environment classes, all later histories, actions and random draws", "why_tests_cant": "it quantifies over arbitrary dictionaries and over everything that happens afterwards: independence from an option cannot be tested by examples", "anchors": ["highway_env/envs/common/abstract.py:AbstractEnv.default_config", "highway_env/envs/common/abstract.py:AbstractEnv.__init__", "highway_env/envs/common/abstract.py:AbstractEnv.configure", "highway_env/envs/common/action.py:action_factory", "highway_env/envs/common/observation.py:observation_factory", "highway_env/envs/*_env.py:default_config"]}
{"id": "C107", "title": "When a change of configuration takes effect", "statement": "After any history of configure, reset and step calls: the action and observation types in use are those of the configuration at the time of the last reset; the next reset does exactly what a new environment given all the options so far would do, random draws being equal; the frequencies in force at the time of a step decide how many frames it simulates (floor of their quotient, fewer only if the episode ends), and the duration in force decides when the episode ends, even when they are changed in the middle of an episode. The action-repeat variants of parking and summon simulate 15 frames per action after any history.", "quantifier": "all histories of configure, reset and step calls with all dictionaries, actions and random draws", "why_tests_cant": "an invariant over unboundedly long histories of calls", "anchors": ["highway_env/envs/common/abstract.py:AbstractEnv.default_config", "highway_env/envs/common/abstract.py:AbstractEnv.__init__", "highway_env/envs/common/abstract.py:AbstractEnv.configure", "highway_env/envs/common/abstract.py:AbstractEnv.reset", "highway_env/envs/common/abstract.py:AbstractEnv._simulate", "highway_env/envs/parking_env.py:ParkingEnvActionRepeat", "highway_env/envs/summon_env.py:SummonEnvActionRepeat"]}
{"id": "C108", "title": "Every shipped environment can be played with its default configuration", "statement": "Highway, merge, roundabout, intersection, multi-agent intersection, parking and summon environments made with their default configuration, with any display options and any options they do not know, can be made whatever the random draws (for the multi-agent intersection, as long as the normal draws that place the agents are within 5), and then be stepped for ever with actions of their space: no exception, observations always in their space, rewards always in the documented range. The same holds for every configuration whose options make sense, for which this is stated in general. The two-way environment can be made, and its observations and rewards are in range, but its steps may fail (see C95).", "quantifier": "all random draws, all sequences of actions, all values of the options without influence", "why_tests_cant": "tests play a few episodes; this is for all draws and unboundedly many steps", "anchors": ["highway_env/envs/common/abstract.py:AbstractEnv.default_config", "highway_env/envs/common/abstract.py:AbstractEnv.__init__", "highway_env/envs/common/abstract.py:AbstractEnv.configure", "highway_env/envs/common/abstract.py:AbstractEnv.step", "highway_env/envs/common/abstract.py:AbstractEnv.reset"]}
{"id": "C109", "title": "Invalid options are rejected, and when", "statement": "An 'action' or 'observation' option that is not a dictionary is rejected with TypeError, without 'type' with KeyError, of an unknown type with ValueError; action types with neither longitudinal nor lateral control with ValueError; multi-agent types without the configuration of one agent, and goal observations without scales, with TypeError: in every environment class, whatever the other options and draws. configure itself never complains: the episode in progress goes on exactly as before and the next reset raises the exception. A class of other vehicles that is not a dotted path is rejected with ValueError by the environments that have other vehicles.", "quantifier": "all environment classes, all other options, all states reached, all random draws", "why_tests_cant": "quantifies over all values of the option and all other options and states", "anchors": ["highway_env/envs/common/abstract.py:AbstractEnv.default_config", "highway_env/envs/common/abstract.py:AbstractEnv.__init__", "highway_env/envs/common/abstract.py:AbstractEnv.configure", "highway_env/envs/common/action.py:action_factory", "highway_env/envs/common/observation.py:observation_factory", "highway_env/envs/common/action.py:ContinuousAction.__init__", "highway_env/envs/common/action.py:DiscreteMetaAction.__init__"]}
{"id": "C110", "title": "Reproducibility does not depend on the hash seed", "statement": "In every environment of the package, with the same random draws, the same actions and the same operations on the other environments of the process, resets, steps, observations, rewards and exceptions are the same in every process, whatever the order in which python iterates over sets of strings (PYTHONHASHSEED): on the shipped networks there is at most one shortest route between two nodes, so the planned routes do not depend on this order. The exception is turning back at the intersection (from an arm to its own way out), where three routes have the same length: two processes with the same draws can then start different episodes. This happens in the default configuration of the multi-agent intersection (the second agent starts on the arm every agent is sent to), and in no other default configuration, nor with one agent of random destination. (At the intersection, as long as the normal draws are within 5.)", "quantifier": "all random draws, all set orders, all actions and interleavings of environments of a process", "why_tests_cant": "it compares all pairs of processes: the order of sets is fixed during a test run, and a test of equality in one process always passes", "anchors": ["highway_env/road/road.py:RoadNetwork.bfs_paths", "highway_env/road/road.py:RoadNetwork.shortest_path", "highway_env/vehicle/controller.py:ControlledVehicle.plan_route_to", "highway_env/envs/intersection_env.py:IntersectionEnv._make_vehicles", "highway_env/envs/intersection_env.py:IntersectionEnv._spawn_vehicle", "highway_env/envs/roundabout_env.py:RoundaboutEnv._make_vehicles"]}
{"id": "C111", "title": "Where the scene lies on the plane does not matter", "statement": "Move a whole scene (network, vehicles with their history, obstacles) rigidly on the plane, by any shift, by whole turns of the headings, and, when every lane of the network is straight or sinusoidal, by any quarter turn. Then everything that happens is the same, moved: every lane has the same length, positions, local coordinates and directions; every vehicle is on the same lane; the same vehicles collide; one Road.act, one Road.step (plain or with priority rules), one env.step of highway, roundabout, two-way and intersection, and every episode, lead to the moved state or raise the same exception; the end of the episode, the rewards (merge included), the available actions and the time-to-collision grid are equal. When the scene is only shifted, relative Kinematics observations differ only in the observer's own x and y, OccupancyGrid observations are equal, and so are the rewards and ends of parking when the goal moves too. straight_road_network at an angle is the one at angle zero, turned. What does depend on the place: collisions after a turn by other angles than quarter turns (two cars side by side, not touching, collide after a turn by 45 degrees), the lane change timer of a vehicle created without one (a function of its absolute position), the end of merge (x > 370), the observer's own row.", "quantifier": "every motion (shift, angle, whole turns vehicle by vehicle) allowed on the network, every network, road, vehicle, scenario, sequence of actions and random draws, every observation configuration that is relative", "why_tests_cant": "a test moves a few scenes by a few shifts; the claim is an equality of whole episodes, exceptions included, for every scene and motion, and it involves every function that reads a position or a heading", "anchors": ["highway_env/road/lane.py:StraightLane, SineLane, CircularLane, AbstractLane.distance_with_heading", "highway_env/road/road.py:RoadNetwork.get_closest_lane_index, next_lane, straight_road_network, Road.act, Road.step", "highway_env/vehicle/kinematics.py:Vehicle.step, check_collision, to_dict", "highway_env/vehicle/behavior.py:IDMVehicle", "highway_env/utils.py:point_in_rotated_rectangle", "highway_env/envs/common/observation.py:KinematicObservation, OccupancyGridObservation", "highway_env/envs/common/abstract.py:AbstractEnv.step"]}
{"id": "C112", "title": "What the car-following law does, and its blind spot", "statement": "The acceleration of an IDM vehicle behind anything more than a centimetre away along its lane is exactly comfort_max * (1 - (v/target)^4 - (wanted gap / gap)^2), where the wanted gap is distance + v*time + v*(closing speed)/(2*sqrt(comfort_max*comfort_min)) and the closing speed counts the leader's velocity along the follower's heading. Behind a leader with the same velocity and below its target there is exactly one gap, (distance + v*time)/sqrt(1-(v/target)^4), at which the follower keeps its speed; nearer it brakes, farther it accelerates. At or above its target it brakes behind anything, however far. Of two leaders at the same place, the one closed on faster brakes it more, as long as the wanted gap is not negative; below zero (a leader running away) the law is inverted: the faster the leader runs away, the harder the follower brakes (default constants, 20 m/s, 10 m gap: it accelerates behind a leader at 35.5 m/s and brakes behind one at 40 m/s). Whatever the traffic does, an IDM vehicle that has not crashed and starts at or below its target speed (at most 40 m/s) never exceeds it, in any run of any length.", "quantifier": "every road, follower, leader (vehicle or obstacle), gap, speeds, headings and IDM constants; every traffic, random draws and number of frames (time step at most 1/2 s and 4*comfort_max*dt at most the target speed)", "why_tests_cant": "tests drive a few leaders at a few speeds; the law is a function of five real quantities, and the bound on the speed ranges over unbounded runs in any traffic", "anchors": ["highway_env/vehicle/behavior.py:IDMVehicle.acceleration, desired_gap, act", "highway_env/utils.py:not_zero", "highway_env/road/road.py:Road.act, Road.step"]}
{"id": "C113", "title": "Groups of vehicles that do not meet evolve independently", "statement": "A simulation of several groups of vehicles on one road network is the juxtaposition of the simulations of each group: as long as the vehicles of one group stand (up to 1 m beside, 5 m beyond the ends) on none of the lanes of the road segments where the vehicles of the other group are, aim at none of those segments, and touch neither those vehicles nor an object, every position, speed, heading, target and action of the other group is, at every frame, what it would be if the first group did not exist. This holds whichever group comes first in road.vehicles, although vehicles decide one after the other and see each other's new actions within a frame, for any number of vehicles and frames.", "quantifier": "every road without traffic rules, every split of its vehicles into two groups, every number of vehicles and frames, every time step and random draws", "why_tests_cant": "tests run one scene with all its vehicles; that nothing leaks from unseen traffic is a statement comparing two unbounded runs for all traffics", "anchors": ["highway_env/road/road.py:Road.act, Road.step, neighbour_vehicles", "highway_env/vehicle/behavior.py:IDMVehicle.act, change_lane_policy, mobil", "highway_env/vehicle/kinematics.py:Vehicle.check_collision"]}
{"id": "C114", "title": "Nothing is random after reset, except at forks and crossroads", "statement": "In the highway, two-way, merge, parking and summon environments, everything random happens in reset: after it, each step - new state, observations, reward, end of the episode, info, or exception - is a function of the state and the action (up to the shuffling of observations, when it is configured), whatever the generator contains and whenever env.seed is called; so replaying the same actions from a copy gives the same episode. In the merge even reset draws nothing: two episodes with the same actions are the same, whatever the seed. More generally, on any network where no node has two ways out, the simulated traffic is a function of the initial road. The condition is needed: a vehicle without a planned route that reaches a fork takes either road, depending on the draw; the roundabout has a fork at each exit and the intersection at each arm.", "quantifier": "every environment of these kinds, configuration, class attributes, state, sequence of actions and random draws; every network without fork, traffic and number of frames", "why_tests_cant": "a test with a fixed seed sees one sequence of draws; that none of them matters is a statement about all pairs of sequences and unbounded episodes", "anchors": ["highway_env/road/road.py:RoadNetwork.next_lane", "highway_env/vehicle/controller.py:ControlledVehicle.follow_road", "highway_env/envs/common/abstract.py:AbstractEnv.seed, reset, step", "highway_env/envs/merge_env.py:MergeEnv._make_vehicles"]}
{"id": "C115", "title": "Showing what an agent plans: exact predictions, but few plans can be shown", "statement": "predict_trajectory is exact: on a network without fork and without road rules, if the (first) agent then takes the actions and does not crash, the states it returned are the states of its vehicle at every trajectory_timestep, whatever the traffic and the other agents do and whatever is drawn. But set_agent_action_sequence raises AttributeError for any non-empty plan of an agent with discrete actions outside the intersection (no ACTIONS attribute) and for plans of two or more continuous actions; with several agents it shows what the first would do if idle, whatever the actions; in the intersection with lane changes enabled, it shows other actions than the ones planned, or raises KeyError; a plan of at most one action leaves the previous one on display; with fewer than three frames per action no plan can be shown, otherwise it has frames * actions / floor(frames / 3) states. A displayed plan adds one transparent box per state within the window, between the road and everything else. The panel of the agent and the simulation tile the screen without overlap; the image contains the panel only on screen with render_agent.", "quantifier": "every environment, state, plan, traffic, random draws, frequencies, view and window size", "why_tests_cant": "quantifies over all plans, traffic and histories; a test of one plan on one road cannot show that predictions never differ from what happens", "anchors": ["highway_env/vehicle/controller.py:MDPVehicle.predict_trajectory", "highway_env/envs/common/graphics.py:EnvViewer.set_agent_action_sequence, set_agent_display, display, get_image", "highway_env/vehicle/graphics.py:VehicleGraphics.display_trajectory"]}
{"id": "C116", "title": "Which environments can be turned into a finite MDP, and what it pays", "statement": "env.to_finite_mdp() succeeds at every point of every episode of the highway, and of the merge and the roundabout only if an entry collision_reward is added to their configuration, with a single agent with meta-actions and at least one decision per ten seconds: its states are three speed levels, the lanes of the agent's road and one column per decision of the next ten seconds, its present state is the agent's, its actions are the environment's, and rewards are collision_reward times the predicted collision plus what is paid for lanes to the right, speed and lane changes. With their default options the merge, roundabout and two-way environments raise KeyError, the intersections, parking and summon AttributeError, whatever happened; no configuration makes the latter four or the two-way environment convertible. In the situations its states stand for, the environment pays exactly the table's rewards brought to [0, 1] - in the highway, the roundabout and the two-lane roads of the merge; on three lanes the table pays half for lanes to the right.", "quantifier": "every environment, configuration, history, traffic, random draws, and every state and action of the table", "why_tests_cant": "must hold at every point of every episode and for every entry of tables of unbounded size; tests convert one environment once", "anchors": ["highway_env/envs/common/abstract.py:to_finite_mdp", "highway_env/envs/common/finite_mdp.py:finite_mdp", "highway_env/envs/highway_env.py:_reward", "highway_env/envs/merge_env.py:_reward", "highway_env/envs/roundabout_env.py:_reward"]}
{"id": "C117", "title": "Seeding: what a seed determines, and when", "statement": "After env.seed(s) and env.reset(), every random number taken by the environment or by its road, through any number of episodes, is the next one of the generator of seed s: nothing that happened before, and nothing done to other environments or copies, has any influence, so two such runs take the same numbers. env.seed(s) alone in the middle of an episode only changes what the environment itself takes (spawned vehicles, shuffled observations): the vehicles on the road go on with the previous generator until the next reset. A deep copy of an environment takes exactly the numbers the original would have taken, and the original still takes them afterwards whatever is done with the copy. A new environment that is not seeded takes those of a seed given by the system.", "quantifier": "every number of environments and copies, every interleaving of creations, seeds, resets, random draws and copies", "why_tests_cant": "quantifies over all interleavings of operations on several environments sharing a process; a test compares two runs of one environment", "anchors": ["highway_env/envs/common/abstract.py:seed, __init__, reset, __deepcopy__", "highway_env/road/road.py:Road.__init__"]}
