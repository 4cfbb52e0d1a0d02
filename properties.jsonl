{"id": "C01", "title": "Environment behaves as a finite map from names to obstacles", "statement": "Whatever sequence of add_obstacle, remove_obstacle, operator[] reads, set_aggregated and update calls is made, and however the obstacles themselves are mutated or renamed in between: add_obstacle succeeds exactly when no obstacle is registered under the obstacle's current name and then registers that pointer under it; remove_obstacle succeeds exactly when the name is registered and then unregisters only that name; operator[] on a registered name returns the pointer registered under it.", "quantifier": "all finite histories of environment calls interleaved with arbitrary obstacle mutations", "why_tests_cant": "unit tests exercise one add/remove sequence; the claim is about every history, including renaming of obstacles after insertion", "anchors": ["src/Environment.cpp: Environment::add_obstacle, remove_obstacle, operator[]"]}
{"id": "C02", "title": "Failed environment calls change nothing", "statement": "When add_obstacle throws ObstacleAlreadyExistsException (name already registered) or remove_obstacle/operator[] throws ObstacleNotInEnvironmentException (name unknown), the exception carries the offending name and the registered obstacles, the published obstacle list and the mode are exactly as before the call.", "quantifier": "all environments, names and obstacles", "why_tests_cant": "requires observing the whole state after every possible failing call", "anchors": ["src/Environment.cpp: Environment::add_obstacle, remove_obstacle, operator[]", "include/DynamicObstacleAvoidance/Exceptions"]}
{"id": "C03", "title": "Plain update publishes every registered obstacle once, ordered by name", "statement": "With aggregation off (as last set by set_aggregated, or else as chosen at construction), after update() the obstacle list contains exactly the pointers registered in the environment, each as many times as it is registered, in strictly increasing order of registered name, and no obstacle object is modified.", "quantifier": "all histories leading to the environment", "why_tests_cant": "depends on every possible insertion/removal order", "anchors": ["src/Environment.cpp: Environment::update"]}
{"id": "C04", "title": "The published list is a snapshot taken by update()", "statement": "add_obstacle, remove_obstacle and set_aggregated never change the list returned by get_obstacle_list; hence an environment on which update() was never called makes modulate_velocity return the agent's velocity unchanged whatever obstacles were added, and a removed obstacle keeps acting until the next update().", "quantifier": "all histories without update(), all agents", "why_tests_cant": "a universally quantified statement over histories; the existing test that omits update() cannot reveal that modulation is a no-op", "anchors": ["src/Environment.cpp: Environment::update, add_obstacle, remove_obstacle", "src/Modulation.cpp: modulate_velocity"]}
{"id": "C05", "title": "Aggregated update partitions the obstacles into connected components", "statement": "With aggregation on, for every finite set of registered obstacles (of any type) on which the pairwise intersection test is defined, update() publishes a list such that two obstacles are primitives of the same published aggregate exactly when they are linked by a chain of pairwise intersecting obstacles (earlier-named against later-named), every obstacle appears in exactly one place (one aggregate or on its own), and an obstacle intersecting nobody is published itself, unaggregated, in name order after the aggregates.", "quantifier": "all numbers of obstacles, all intersection graphs, all orders of discovery of the intersections (including merges of several aggregates)", "why_tests_cant": "the merge code path depends on the order in which pairs are discovered; tests cover two obstacles", "anchors": ["src/Utils/ObstacleGeneration/Aggregation.cpp: aggregate_obstacles", "src/Environment.cpp: Environment::update"]}
{"id": "C06", "title": "Published aggregates are well-formed", "statement": "Every aggregate published by update() has at least two primitives, its primitives are ordered by name, its name is 'aggregate' followed by '_'+name for each primitive in that order, its position and reference position are the mean of the primitives' positions, and every primitive's reference position equals that mean.", "quantifier": "all environments and all merge histories", "why_tests_cant": "merging mutates aggregates incrementally; only an invariant over all discovery orders shows the final mean and name are right", "anchors": ["src/Obstacle/Aggregate.cpp: Aggregate::add_primitive", "src/Utils/ObstacleGeneration/Aggregation.cpp: aggregate_obstacles"]}
{"id": "C07", "title": "update() modifies nothing but reference positions of grouped obstacles", "statement": "update() leaves name, state, margin, lengths and type of every pre-existing obstacle unchanged; the reference position of an obstacle changes only if the obstacle belongs to a published aggregate (directly or nested).", "quantifier": "all heaps of obstacles and environments", "why_tests_cant": "a frame property over all objects", "anchors": ["src/Utils/ObstacleGeneration/Aggregation.cpp: aggregate_obstacles", "include/DynamicObstacleAvoidance/Obstacle/Aggregate.hpp: Aggregate::set_reference_position"]}
{"id": "C08", "title": "update() is total: it neither throws nor has undefined behaviour", "statement": "For every environment whose registered obstacles are well-formed (no null pointer, no cyclic aggregates), update() returns normally in both modes.", "quantifier": "all well-formed environments", "why_tests_cant": "indexing by aggregate indexes that are decremented during merges must never go out of range, for every merge order", "anchors": ["src/Utils/ObstacleGeneration/Aggregation.cpp: aggregate_obstacles", "src/Environment.cpp: Environment::update"]}
{"id": "C09", "title": "Obstacles that separate keep no trace of their old aggregate", "statement": "After obstacles that were aggregated move apart and update() is called again, each obstacle's reference position is its own again. (FALSE of the code: the reference position of the old aggregate stays.)", "quantifier": "all histories of moves and updates", "why_tests_cant": "needs a history with at least two updates and motion in between", "anchors": ["include/DynamicObstacleAvoidance/Obstacle/Aggregate.hpp: Aggregate::set_reference_position", "src/Utils/ObstacleGeneration/Aggregation.cpp: aggregate_obstacles"]}
{"id": "C10", "title": "operator[] reaches published aggregates", "statement": "With aggregation on, for a name not registered directly, operator[] returns the first published obstacle whose current name is that name and throws ObstacleNotInEnvironmentException if there is none; with aggregation off it always throws for such names.", "quantifier": "all environments, names and published lists", "why_tests_cant": "quantifies over all histories", "anchors": ["src/Environment.cpp: Environment::operator[]"]}
{"id": "C11", "title": "Different aggregates have different names", "statement": "Two different published aggregates never have the same name, so that operator[] can reach each of them. (FALSE of the code: the '_' separator is ambiguous.)", "quantifier": "all environments", "why_tests_cant": "needs an adversarial choice of obstacle names", "anchors": ["src/Obstacle/Aggregate.cpp: Aggregate::add_primitive", "src/Environment.cpp: Environment::operator[]"]}
{"id": "C12", "title": "The agent's envelope follows the agent", "statement": "After any setter of pose, position, orientation, linear or angular velocity on an agent that owns an envelope, the envelope is centred half a metre ahead of the agent along its velocity, has half-axes 0.5+m, m, m (m, m, m when the velocity is zero) with m = max(0.1, safety margin), is oriented along the horizontal heading, and contains (in the sense of point_is_inside) the agent's position and the whole horizontal look-ahead segment from m behind to 0.5+m beyond the envelope centre.", "quantifier": "all agents, positions, velocities, margins and histories of setter calls", "why_tests_cant": "quantifies over all real positions, headings and margins", "anchors": ["src/Agent.cpp: Agent::update_envelope", "include/DynamicObstacleAvoidance/Agent.hpp: setters"]}
{"id": "C13", "title": "The envelope is always up to date", "statement": "At any time the envelope equals the one determined by the agent's current position, velocity and margin. (FALSE of the code: after construction and after set_safety_margin it is stale.)", "quantifier": "all histories of agent calls", "why_tests_cant": "a history property", "anchors": ["include/DynamicObstacleAvoidance/Agent.hpp: Agent::set_safety_margin", "src/Agent.cpp: Agent::Agent"]}
{"id": "C14", "title": "Copies of an agent are usable", "statement": "An agent obtained by copy construction or by transformed(p) can be used like the original; transformed(p) returns an agent whose pose is p composed with the original pose. (FALSE of the code: the copy owns no envelope; every setter on it, transformed, and local modulation dereference a null pointer.)", "quantifier": "all agents and transforms", "why_tests_cant": "undefined behaviour: a test may pass or crash", "anchors": ["src/Agent.cpp: Agent::Agent(const Agent&)", "include/DynamicObstacleAvoidance/Agent.hpp: Agent::transformed"]}
{"id": "C15", "title": "exist_path decides by sides of closed obstacles", "statement": "exist_path(target, obstacles) is true exactly when every obstacle of the list that has the target and the agent on different sides of its boundary is not closed; ellipsoids are always closed, so among ellipsoids it is true exactly when none separates the target from the agent; the answer does not depend on the order of the list.", "quantifier": "all agents, targets and obstacle lists of any length", "why_tests_cant": "quantifies over lists of any length", "anchors": ["src/Agent.cpp: Agent::exist_path"]}
{"id": "C16", "title": "in_obstacle is sound", "statement": "If in_obstacle(o) is true for an ellipsoid o oriented about the vertical axis then some point of the horizontal plane is both within max(0.1, margin) of the agent and inside o (with its safety margin); and in_obstacle is true whenever the agent's position is inside o.", "quantifier": "all agents and planar-oriented ellipsoids", "why_tests_cant": "quantifies over all real geometries", "anchors": ["src/Agent.cpp: Agent::in_obstacle", "src/Obstacle/Ellipsoid.cpp: is_intersecting_ellipsoid"]}
{"id": "C17", "title": "Poses hold unit orientations", "statement": "Every orientation stored by a Pose constructor given a non-zero quaternion of norm at most 1, and every orientation stored by set_orientation given a non-zero quaternion, has norm 1; constructors also make w non-negative; composition and inversion of poses preserve unit norm. (For constructor arguments of norm above 1.0001 it is FALSE: the orientation is stored unnormalised.)", "quantifier": "all quaternions and all sequences of pose operations", "why_tests_cant": "quantifies over all reals", "anchors": ["src/State/Pose.cpp: Pose::Pose", "include/DynamicObstacleAvoidance/State/Pose.hpp: set_orientation, operator*=, inverse"]}
{"id": "C18", "title": "Poses form a group acting by rigid motions", "statement": "For poses with unit orientation: (p*q)*v = p*(q*v); p*p.inverse() and p.inverse()*p are the identity; composition is associative; v -> p*v preserves distances and orientation (cross products).", "quantifier": "all poses and vectors", "why_tests_cant": "quantifies over all reals", "anchors": ["include/DynamicObstacleAvoidance/State/Pose.hpp: operator*, inverse"]}
{"id": "C19", "title": "A quaternion and its opposite give the same pose", "statement": "Constructing a Pose from q or from -q gives the same action on every vector, and the same stored quaternion whenever the w component is not zero. (Same stored quaternion for w = 0 is FALSE.)", "quantifier": "all positions and quaternions", "why_tests_cant": "quantifies over all reals", "anchors": ["src/State/Pose.cpp: Pose::Pose"]}
{"id": "C20", "title": "linspace returns num equally spaced points with exact end points", "statement": "linspace(a,b,num) throws exactly when num < 2; otherwise it returns num values whose first is exactly a and last exactly b in any arithmetic, and in exact arithmetic the i-th is a + i(b-a)/(num-1), all of them between a and b, monotone.", "quantifier": "all a, b, num", "why_tests_cant": "quantifies over all sizes; exact end points hold even with rounding", "anchors": ["src/Utils/MathTools.cpp: linspace"]}
{"id": "C21", "title": "gridspace enumerates the full grid in row-major order", "statement": "gridspace throws exactly when one size is below 2; otherwise it returns nx*ny points, and the point of index i*ny+j is (i-th of the x linspace, j-th of the y linspace).", "quantifier": "all bounds and sizes", "why_tests_cant": "quantifies over all sizes", "anchors": ["src/Utils/MathTools.cpp: gridspace"]}
{"id": "C22", "title": "Polar conversion round-trips", "statement": "For every point other than the origin, polar_to_cartesian(cartesian_to_polar(p)) = p; the radius is the Euclidean norm, theta is in [0,pi], phi in (-pi,pi].  Conversely for radius > 0, theta in (0,pi), phi in (-pi,pi], cartesian_to_polar(polar_to_cartesian(p)) = p.", "quantifier": "all points of space", "why_tests_cant": "quantifies over all reals and all quadrants", "anchors": ["src/Utils/MathTools.cpp: cartesian_to_polar, polar_to_cartesian"]}
{"id": "C23", "title": "find_closest_points brackets the query on sorted rows", "statement": "If the chosen row is sorted non-decreasingly and the query does not exceed its last element, the first returned index is the least index whose entry is >= the query and the second is its cyclic successor, both valid column indexes; if the query exceeds every entry, or there is no column, the call has no defined result.", "quantifier": "all matrices of any number of columns and all queries", "why_tests_cant": "quantifies over all sizes", "anchors": ["src/Utils/MathTools.cpp: find_closest_points"]}
{"id": "C24", "title": "sorted_cols_by_theta sorts without losing columns", "statement": "The result is a permutation of the input columns with non-decreasing theta.", "quantifier": "all matrices", "why_tests_cant": "quantifies over all sizes", "anchors": ["src/Utils/MathTools.cpp: sorted_cols_by_theta, compare_theta"]}
{"id": "C25", "title": "rand_float stays between its bounds and sign is the sign", "statement": "For every value of rand() in [0, RAND_MAX], rand_float(a,b) lies between min(a,b) and max(a,b), reaching b at 0 and a at RAND_MAX; sign(v) is -1, 0 or 1 with sign(v)*|v| = v.", "quantifier": "all a, b, v and all values of rand()", "why_tests_cant": "the value of rand() is not controllable in a test", "anchors": ["src/Utils/MathTools.cpp: rand_float", "include/DynamicObstacleAvoidance/Utils/MathTools.hpp: sign"]}
{"id": "C26", "title": "Ellipsoid distance is 1 exactly on the surface", "statement": "For an ellipsoid with curvature factor 1 and total half-lengths (axis + own margin + given margin) above 1e-4, compute_distance_to_point is non-negative, zero only at the centre, less than / equal to / greater than 1 exactly when the point is strictly inside / on / strictly outside the ellipsoid with those half-lengths in the obstacle's pose, and moving a point away from the centre by a factor k multiplies it by k squared.", "quantifier": "all poses with unit orientation, lengths, margins, points", "why_tests_cant": "quantifies over all reals", "anchors": ["src/Obstacle/Ellipsoid.cpp: compute_distance_to_point"]}
{"id": "C27", "title": "A larger safety margin never makes an obstacle look farther", "statement": "With total half-lengths above 1e-4, increasing any component of the margin does not increase the distance, and strictly decreases it if the point is off the corresponding coordinate plane. (Across the 1e-4 threshold it is FALSE.)", "quantifier": "all ellipsoids, points and margins", "why_tests_cant": "quantifies over all reals", "anchors": ["src/Obstacle/Ellipsoid.cpp: compute_distance_to_point"]}
{"id": "C28", "title": "Obstacle geometry is frame independent", "statement": "Applying one rigid motion to an ellipsoid and to the agent/point leaves compute_distance_to_point and point_is_inside unchanged and leaves the (obstacle-frame) normal unchanged.", "quantifier": "all rigid motions, ellipsoids and points", "why_tests_cant": "quantifies over all reals", "anchors": ["src/Obstacle/Ellipsoid.cpp: compute_distance_to_point, point_is_inside, compute_normal_to_agent"]}
{"id": "C29", "title": "The ellipsoid normal is the unit outward normal of the level set", "statement": "For curvature factor 1 and an agent not at the centre the normal has norm 1 and, expressed in the obstacle frame, supports the level set: every point whose distance is not larger than the agent's lies on or behind the plane through the agent with that normal. (For curvature factor 2 it is FALSE.)", "quantifier": "all ellipsoids, agents and points", "why_tests_cant": "quantifies over all reals; states optimality against every point", "anchors": ["src/Obstacle/Ellipsoid.cpp: compute_normal_to_agent"]}
{"id": "C30", "title": "point_is_inside agrees with distance in the plane", "statement": "For an ellipsoid with half-lengths above 1e-4 and a point in the obstacle's own xy-plane, point_is_inside is true exactly when compute_distance_to_point with zero margin is at most 1. (Off that plane it is FALSE: height is ignored.)", "quantifier": "all planar points and ellipsoids", "why_tests_cant": "quantifies over all reals", "anchors": ["src/Obstacle/Ellipsoid.cpp: point_is_inside, compute_distance_to_point"]}
{"id": "C31", "title": "Boundary samples are on the boundary", "statement": "sample_from_parameterization(n, margin?) of an ellipsoid rotated about the vertical axis, n >= 2, returns n points each satisfying the boundary equation of the (margin-inflated or not) ellipse, the first and the last being the same point; n < 2 throws.", "quantifier": "all ellipsoids with yaw orientation (any sign of the quaternion), all n", "why_tests_cant": "quantifies over all orientations and sample counts", "anchors": ["src/Obstacle/Ellipsoid.cpp: sample_from_parameterization"]}
{"id": "C32", "title": "Intersection detection is sound", "statement": "If is_intersecting is true for two ellipsoids rotated about the vertical axis, their margin-inflated horizontal ellipses share a point. (Completeness, and symmetry, are FALSE: overlaps between consecutive samples, and aggregates on the left, are missed.) An obstacle meets an aggregate of ellipsoids exactly when it meets one of them.", "quantifier": "all pairs of ellipsoids with positive lengths", "why_tests_cant": "quantifies over all reals; incompleteness needs an adversarial geometry", "anchors": ["src/Obstacle/Ellipsoid.cpp: is_intersecting_ellipsoid", "src/Obstacle/Obstacle.cpp: is_intersecting"]}
{"id": "C33", "title": "Line-ellipse intersection is exact", "statement": "For a line through two points with different x in the obstacle frame, compute_interesection_points reports true exactly when the line meets the horizontal ellipse, and then returns the (two, possibly equal) intersection points in world coordinates, both on the line and on the boundary. (For lines parallel to the obstacle's y axis it is FALSE: the intersection is missed.)", "quantifier": "all ellipsoids with yaw orientation in the plane and all lines", "why_tests_cant": "quantifies over all reals", "anchors": ["src/Obstacle/Ellipsoid.cpp: compute_interesection_points"]}
{"id": "C34", "title": "Planar modulation moves the reference point to the chord midpoint", "statement": "shift_reference_point changes nothing when the heading line misses the obstacle or the obstacle is not an ellipsoid, and otherwise puts the reference position at the midpoint of the chord cut by the heading line, which is inside the obstacle and on the heading line; no other obstacle is touched.", "quantifier": "all ellipsoids, agents and velocities (heading not parallel to the obstacle's y axis)", "why_tests_cant": "quantifies over all reals", "anchors": ["src/Obstacle/Obstacle.cpp: shift_reference_point"]}
{"id": "C35", "title": "Repulsion acts only close to the obstacle and points away from its reference", "statement": "generate_repulsion is zero when the distance is at least the threshold and otherwise is a positive multiple (2/distance) of the vector from the reference point to the agent for an ellipsoid not centred on the agent. modulate_velocity with repulsion returns the velocity without repulsion plus the sum of the repulsions of the listed obstacles at threshold 1.1, unless that sum is shorter than 0.0001. An aggregate pushes with 20/distance, away from its reference if the agent is outside and towards it if the agent is inside. (That repulsion drives an agent out of what it has entered is FALSE of the code: an agent inside an aggregated ball is pulled to its centre.)", "quantifier": "all agents, ellipsoids, aggregates, thresholds", "why_tests_cant": "quantifies over all reals", "anchors": ["src/Obstacle/Obstacle.cpp: generate_repulsion, get_repulsion_factor", "src/Obstacle/Ellipsoid.cpp: compute_repulsion_vector", "src/Obstacle/Aggregate.cpp: compute_repulsion_vector"]}
{"id": "C36", "title": "area is the surface area for spheres", "statement": "area() of a sphere of radius r is 4*pi*r^2. (FALSE of the code for every r other than 1: it returns 4*pi*r.)", "quantifier": "all radii", "why_tests_cant": "quantifies over all reals", "anchors": ["src/Obstacle/Ellipsoid.cpp: area"]}
{"id": "C37", "title": "Hull radii respect the minimum radius", "statement": "Whatever happened to a hull before, every radius stored by compute_from_primitives is at least 18/19 of the minimum radius, and at least the minimum radius if the previous contents were. (The intended bound, the minimum radius itself, is FALSE of the code because smoothing reads stale columns, which are zero in a new hull.) A hull built from obstacles is the one computed around the mean of their positions, which becomes its position and reference position.", "quantifier": "all primitives, resolutions >= 2, previous contents with non-negative radii", "why_tests_cant": "quantifies over all shapes and histories", "anchors": ["src/Obstacle/StarShapeHull.cpp: compute_from_primitives"]}
{"id": "C38", "title": "Hull queries are defined for every point", "statement": "compute_distance_to_point, compute_normal_to_agent and point_is_inside of a computed hull return a result exactly when the azimuth of the position does not exceed the last stored one, which is within 2e-4 of pi, and they use the first stored column whose azimuth is not before it. (That they return for every position is FALSE of the code: straight behind the hull they index past the end.)", "quantifier": "all positions", "why_tests_cant": "undefined behaviour in a set of positions of tiny measure", "anchors": ["src/Utils/MathTools.cpp: find_closest_points", "src/Obstacle/StarShapeHull.cpp: compute_distance_to_point"]}
{"id": "C39", "title": "An aggregate contains its primitives", "statement": "Whenever point_is_inside of an aggregate returns, it is true for every point inside one of its primitives and false only if the point is outside its outer hull and outside all primitives.", "quantifier": "all aggregates, nesting depths and points", "why_tests_cant": "quantifies over all aggregates", "anchors": ["src/Obstacle/Aggregate.cpp: point_is_inside"]}
{"id": "C40", "title": "Hull distance and closedness are consistent with point_is_inside", "statement": "For an outside hull with positive radii, the distance is below 1 exactly when point_is_inside; for an inside hull the distance is above 1 exactly when point_is_inside; is_closed implies that every stored radius exceeds 1.2 times the minimum radius.", "quantifier": "all hulls and points where the lookup is defined", "why_tests_cant": "quantifies over all hulls", "anchors": ["src/Obstacle/StarShapeHull.cpp: compute_distance_to_point, point_is_inside, is_closed"]}
{"id": "C41", "title": "update_hull is a function of the current primitives", "statement": "The result of update_hull depends on the previous contents of the hull by at most 1/19 of the difference of the radii, and not at all in the azimuths. (That calling update_hull twice gives the same hull as calling it once is FALSE of the code for every new aggregate: smoothing mixes in the previous contents.)", "quantifier": "all aggregates", "why_tests_cant": "a history property", "anchors": ["src/Obstacle/StarShapeHull.cpp: compute_from_primitives"]}
{"id": "C42", "title": "Obstacle weights form a convex combination", "statement": "weight_obstacles returns one weight per obstacle, each in [0,1], summing to 1; if some distances are at most the critical distance exactly those obstacles share the weight equally and the others get 0; otherwise all weights are positive and a closer obstacle never weighs less than a farther one (weight_power >= 0).", "quantifier": "all non-empty distance arrays, critical distances and powers", "why_tests_cant": "quantifies over arrays of any size", "anchors": ["src/Modulation.cpp: weight_obstacles"]}
{"id": "C43", "title": "Eigenvalues damp the reference direction and amplify the tangent", "statement": "For reactivity > 0 the reference eigenvalue is in [0,1), the tangent one in (1,2], they sum to 2, equal (0,2) at distance <= 1 and tend monotonically to (1,1) as the distance grows without bound.", "quantifier": "all distances and reactivity factors", "why_tests_cant": "quantifies over all reals, includes a limit", "anchors": ["src/Modulation.cpp: compute_diagonal_eigenvalues"]}
{"id": "C44", "title": "The modulation matrix has the reference direction and tangents as eigenvectors", "statement": "For an ellipsoid and an agent for which the reference basis is invertible, the modulation matrix maps the world-frame reference direction to (1-1/d) times itself (0 inside or on the surface) and each world-frame tangent column of the basis to (1+1/d) times itself.", "quantifier": "all ellipsoids, orientations, reference points, agents", "why_tests_cant": "quantifies over all reals", "anchors": ["src/Modulation.cpp: compute_modulation_matrix, compute_basis_matrices"]}
{"id": "C45", "title": "No obstacle (in sight), no modulation", "statement": "With an empty obstacle list, or with is_local and an envelope that intersects no listed obstacle, modulate_velocity returns the agent's linear velocity unchanged and modifies nothing; with is_local and an envelope that intersects at least one listed obstacle, the result is the one without is_local.", "quantifier": "all agents, environments and parameters", "why_tests_cant": "quantifies over all environments", "anchors": ["src/Modulation.cpp: modulate_velocity"]}
{"id": "C46", "title": "The result never contains NaN once modulation is performed", "statement": "Whenever modulate_velocity gets past the early returns, no coordinate of the result is NaN: if anything degenerates the result is the zero vector. (For the early returns it is FALSE: a NaN velocity is returned as is.)", "quantifier": "all inputs including infinities and NaN, any arithmetic", "why_tests_cant": "quantifies over all floating point inputs", "anchors": ["src/Modulation.cpp: modulate_velocity"]}
{"id": "C47", "title": "modulate_velocity only reads, unless planar_modulation", "statement": "Without planar_modulation no obstacle is modified; with it only reference positions of listed obstacles (and primitives) are.", "quantifier": "all inputs", "why_tests_cant": "frame property over all objects", "anchors": ["src/Modulation.cpp: modulate_velocity", "src/Obstacle/Obstacle.cpp: shift_reference_point"]}
{"id": "C48", "title": "With one obstacle in the plane the result is the modulated relative velocity", "statement": "For one ellipsoid in a horizontal planar configuration, modulate_velocity returns M(v - v_obs) + v_obs exactly when the deflection angle is 0 or at least 1e-4, and within a relative error of 1e-8 otherwise, where v_obs is the obstacle's velocity at the agent damped by exp(-(max(1,d)-1)) and M the modulation matrix.", "quantifier": "all planar agents, ellipsoids (yaw orientation), velocities", "why_tests_cant": "quantifies over all reals; passes through acos/sin/cos reconstruction", "anchors": ["src/Modulation.cpp: modulate_velocity"]}
{"id": "C49", "title": "Impenetrability in the plane", "statement": "For any number of ellipsoids in a horizontal planar configuration, if the agent is in or on exactly one of them (all others beyond the critical distance 1), the component of the modulated velocity relative to the obstacle's motion along the outward normal is zero if the deflection angle is 0 or at least 1e-4, and otherwise at most 1e-12 times the modulated speed. (Exact impenetrability in the 1e-4 band is FALSE.)", "quantifier": "all planar agents, desired velocities, obstacle motions, numbers of obstacles", "why_tests_cant": "the safety claim of the library; quantifies over a continuum of configurations", "anchors": ["src/Modulation.cpp: modulate_velocity, compute_modulation_matrix"]}
{"id": "C50", "title": "The agent never enters a static obstacle, for any number of steps", "statement": "An agent that starts outside a static planar ellipsoid (reference at its centre) and repeatedly moves by dt times the modulated velocity, for arbitrary desired velocities chosen at each step with dt*|v| at most half the smallest half-length, and deflection angles outside the band (0,1e-4), stays outside for ever.", "quantifier": "all initial positions, all unbounded sequences of desired velocities", "why_tests_cant": "an unbounded-time safety property", "anchors": ["src/Modulation.cpp: modulate_velocity", "include/DynamicObstacleAvoidance/Agent.hpp: Agent::set_position, set_linear_velocity"]}
{"id": "C51", "title": "Impenetrability in space", "statement": "For a single ellipsoid in general position in space the modulated velocity on the surface has no inward normal component. (FALSE of the code: the third basis vector is not tangent to the surface.)", "quantifier": "all spatial configurations", "why_tests_cant": "needs a specific non-planar, non-spherical configuration", "anchors": ["src/Modulation.cpp: compute_basis_matrices"]}
{"id": "C52", "title": "Impenetrability with several critical obstacles", "statement": "If the agent touches two obstacles the modulated velocity enters neither. (FALSE of the code: at the notch of two overlapping circles an agent heading into the notch is driven straight in, faster than it wanted.) Among obstacles at rest in the plane this does hold when the velocities modulated for the other touched obstacles do not enter the first one and the desired velocity does not enter it either, or all obstacles turn the agent the same way round (exactly if by at least 1e-4 rad, up to 1e-12 of the speed otherwise); more generally a direction against which no single modulated velocity goes is kept.", "quantifier": "all planar configurations", "why_tests_cant": "needs a symmetric adversarial configuration", "anchors": ["src/Modulation.cpp: modulate_velocity"]}
{"id": "C53", "title": "The order of the obstacles does not matter", "statement": "Without planar_modulation, permuting the obstacle list does not change the modulated velocity (exact arithmetic).", "quantifier": "all lists, agents and permutations", "why_tests_cant": "quantifies over all permutations", "anchors": ["src/Modulation.cpp: modulate_velocity, weight_obstacles, compute_relative_velocities"]}
{"id": "C54", "title": "The modulated velocity is independent of the choice of horizontal world frame", "statement": "Rotating the whole scene about the vertical axis and translating it (agent position and velocity, obstacles' poses, reference points and velocities) rotates the modulated velocity by the same rotation, when every obstacle is at rest or moves in the horizontal plane of the agent (global modulation). (FALSE for moving obstacles in space: the orthogonal basis is expressed in the obstacle's frame and not orthonormal.)", "quantifier": "all scenes of ellipsoids and all planar rigid motions", "why_tests_cant": "quantifies over all reals and all scene sizes", "anchors": ["src/Modulation.cpp: modulate_velocity"]}
{"id": "C55", "title": "Moving with the obstacle is left alone", "statement": "If the agent's velocity equals the blended obstacle velocity at its position, the result is that velocity (plus repulsion).", "quantifier": "all scenes", "why_tests_cant": "quantifies over all scenes", "anchors": ["src/Modulation.cpp: modulate_velocity, compute_relative_velocities"]}
{"id": "C56", "title": "The speed is the weighted modulated speed", "statement": "In a planar scene without repulsion the norm of (result - blended obstacle velocity) equals the weighted sum of the norms of the individually modulated relative velocities (up to a relative error 1e-8 in the small angle branch).", "quantifier": "all planar scenes of any number of ellipsoids", "why_tests_cant": "quantifies over all scenes", "anchors": ["src/Modulation.cpp: modulate_velocity"]}
{"id": "C57", "title": "Far obstacles do not matter", "statement": "For one static planar ellipsoid and a fixed velocity, as the agent's distance value tends to infinity the modulated velocity tends to the desired one, with error at most C|v|/d.", "quantifier": "all directions of going to infinity", "why_tests_cant": "a limit statement", "anchors": ["src/Modulation.cpp: modulate_velocity"]}
{"id": "C58", "title": "Renamed obstacles keep their registration", "statement": "set_name on a registered obstacle does not change the key it is registered under: it is found and removed by the old name only, a second registration of the same obstacle under its new name succeeds if that name is free, and the plain update then publishes it twice.", "quantifier": "all environments and names", "why_tests_cant": "history property", "anchors": ["src/Environment.cpp: add_obstacle, remove_obstacle", "include/DynamicObstacleAvoidance/Obstacle/Obstacle.hpp: set_name"]}
{"id": "C59", "title": "The outside hull covers the primitives up to the smoothing", "statement": "In every sampled direction the radius of an outside hull computed from ellipsoids in the plane is at least 9/10 of the distance of every point of a primitive in this direction. (Exact containment is FALSE of the code: smoothing with the stale columns cuts a part of a single ball off.)", "quantifier": "all lists of planar ellipsoids, directions and histories of the hull", "why_tests_cant": "quantifies over all shapes and histories", "anchors": ["src/Obstacle/StarShapeHull.cpp: compute_from_primitives"]}
{"id": "C60", "title": "Modulation always returns a velocity for lists of ellipsoids", "statement": "modulate_velocity returns a velocity, without exception or undefined behaviour, for every agent and every list of ellipsoids whose reference positions have been set, with every combination of options (with the local option the agent must have an ellipsoidal envelope); it reads an indeterminate value if one of them was created by name only. (That it also returns for aggregates is FALSE of the code: straight behind an aggregate the hull is indexed past its end.)", "quantifier": "all lists of ellipsoids of any length, all agents, options, and all arithmetics", "why_tests_cant": "quantifies over every scene and every floating point behaviour", "anchors": ["src/Modulation.cpp: modulate_velocity", "src/Obstacle/Obstacle.cpp: constructors", "src/Obstacle/Ellipsoid.cpp"]}
{"id": "C61", "title": "No spurious stops", "statement": "In a planar scene the agent is stopped relative to the obstacles exactly if, for every obstacle of positive weight, it does not move relative to them or it touches this obstacle and moves along its reference direction. In particular, away from all static obstacles the modulated velocity is zero only if the desired one is: there are no spurious attractors.", "quantifier": "all planar scenes of any number of ellipsoids, all velocities", "why_tests_cant": "absence of spurious fixed points over a continuum", "anchors": ["src/Modulation.cpp: modulate_velocity"]}
{"id": "C62", "title": "How fast the agent can become", "statement": "In a planar scene of obstacles whose normals at the agent point along the reference directions (balls), modulation changes the speed relative to the obstacles by a factor between 1-1/d and 1+1/d, where d is the smallest distance value. (That the speed is bounded by any fixed multiple of the desired speed is FALSE of the code for elongated ellipsoids: sliding along one, the agent can be arbitrarily faster than desired.)", "quantifier": "all planar scenes, all velocities; the refutation for every candidate bound", "why_tests_cant": "needs a family of scenes, one for each bound", "anchors": ["src/Modulation.cpp: modulate_velocity, compute_diagonal_eigenvalues"]}
{"id": "C63", "title": "One static obstacle in space", "statement": "For one static ellipsoid in any position and orientation the result is s*w + (1-s)*(projection of w on the desired direction), where w is the velocity the method prescribes and s the horizontal share of the desired velocity; hence an agent that touches a static ball and wants to move horizontally does not enter it. (That it does not enter for other directions is FALSE of the code: every approach that is neither horizontal nor central enters the ball, because the frame used to recompose the velocity is not orthonormal.)", "quantifier": "all static ellipsoids, positions and velocities in space", "why_tests_cant": "quantifies over a continuum of spatial configurations; passes through acos/sin/cos", "anchors": ["src/Modulation.cpp: modulate_velocity, compute_dynamical_system_frame"]}
{"id": "C64", "title": "Vertical motion is never deflected", "statement": "If the desired velocity is vertical and all listed obstacles are at rest, the result is a non-negative multiple of the desired velocity, whatever the obstacles are and wherever the agent is.", "quantifier": "all scenes with any number and kind of obstacles", "why_tests_cant": "quantifies over all scenes", "anchors": ["src/Modulation.cpp: compute_dynamical_system_frame, modulate_velocity"]}
{"id": "C65", "title": "Planar modulation within the plane of an obstacle only slows down", "statement": "With planar_modulation, one static ellipsoid whose horizontal plane contains the motion and whose boundary is met by the line of motion (in front of or behind the agent) makes the result (1-1/d) times the desired velocity: the agent is slowed down but never led around the obstacle, and is also slowed down when it moves away.", "quantifier": "all static ellipsoids, agents and velocities in their plane", "why_tests_cant": "quantifies over a continuum", "anchors": ["src/Modulation.cpp: modulate_velocity", "src/Obstacle/Obstacle.cpp: shift_reference_point", "src/Obstacle/Ellipsoid.cpp: compute_interesection_points"]}
{"id": "C66", "title": "The picture of an ellipsoid from above", "statement": "In the xy view draw shows an ellipsoid as a closed polygon of 100 corners on the boundary of its horizontal section, equally spaced in the angle, then its centre (or name) and its reference position; drawing is undefined only if the reference position was never set. (That the dashed line shows the safety margin is FALSE of the code: it repeats the first outline, so with a positive margin no point of it is on the inflated boundary.)", "quantifier": "all ellipsoids, poses, margins, colours", "why_tests_cant": "the outline is a function of all poses and lengths; the plotting backend hides it from tests", "anchors": ["src/Obstacle/Ellipsoid.cpp: draw"]}
{"id": "C67", "title": "The picture of an ellipsoid from the side", "statement": "In the xz view draw should show the extent of the ellipsoid along x and z. FALSE of the code: it shows the section in the plane of the second and third axes, so every unrotated ellipsoid appears as a vertical segment through its centre.", "quantifier": "all ellipsoids and poses", "why_tests_cant": "universally quantified over poses", "anchors": ["src/Obstacle/Ellipsoid.cpp: draw"]}
{"id": "C68", "title": "Windows are complete", "statement": "The plotting functions draw the listed obstacles in order, the six colours in turn, then the agent, the goal and the whole trajectory; each opens one figure first, saves it exactly if a file name is given, shows it exactly if asked, and closes it last. With two panels the same things are in both, each panel with its own limits. They return whenever every reachable obstacle has a reference position (and hulls have been computed).", "quantifier": "all lists of obstacles (nested aggregates included), agents, trajectories, options", "why_tests_cant": "unbounded lists and nesting", "anchors": ["src/Utils/Plotting/PlottingTools.cpp: plot_obstacles, plot_configuration, plot_guard_configuration", "src/Obstacle/Aggregate.cpp: draw", "src/Obstacle/StarShapeHull.cpp: draw"]}
{"id": "C69", "title": "Side views show things from the side", "statement": "The xz view of the guard scenario shows agents, goal and trajectory at (x,z). (FALSE of the code elsewhere: plot_configuration draws the agent at (x,y) in the xz panel, and the reference position and hulls of aggregates are drawn at (x,y) in every view.)", "quantifier": "all agents, goals, trajectories, aggregates", "why_tests_cant": "universally quantified; hidden behind the plotting backend", "anchors": ["src/Utils/Plotting/PlottingTools.cpp: plot_configuration, plot_guard_configuration", "src/Obstacle/Aggregate.cpp: draw", "src/Obstacle/StarShapeHull.cpp: draw"]}
{"id": "C70", "title": "Constructing an aggregate", "statement": "Constructing an aggregate from a list of obstacles returns; the aggregate holds exactly them, ordered by name, its name joins theirs, its position and reference position are their mean, its hulls are computed afresh from them around the mean, all (nested) primitives take over the reference position, and nothing else changes. (That its position is a number is FALSE of the code for an empty list: NaN.)", "quantifier": "all stores, all lists of obstacles including nested aggregates, all arithmetics", "why_tests_cant": "unbounded lists and nesting", "anchors": ["src/Obstacle/Aggregate.cpp: Aggregate(primitives), update_hull"]}
{"id": "C71", "title": "Adding primitives one by one", "statement": "Adding obstacles to an empty aggregate one after the other gives the aggregate that the constructor would give, up to the hulls; if the names differ the order of the additions does not matter.", "quantifier": "all stores, all sequences of additions, with or without recomputation of the hulls", "why_tests_cant": "all sequences of any length", "anchors": ["src/Obstacle/Aggregate.cpp: add_primitive"]}
{"id": "C72", "title": "The target is reached", "statement": "An agent that repeatedly asks for the velocity K (target - position), follows the modulated velocity for a time dt and has one static round obstacle in its environment converges to the target and never enters the obstacle, whatever the radius, target and start outside it, for steps short against the obstacle, unless it starts on the line through target and centre, at or behind the front point of the disc. (Convergence from every start is FALSE.)", "quantifier": "all radii, margins, targets, gains, step lengths within bounds and starts; all infinite runs", "why_tests_cant": "convergence of infinite executions from a continuum of starts", "anchors": ["src/Modulation.cpp: modulate_velocity", "README.md: section on the algorithm, convergence towards an attractor", "include/DynamicObstacleAvoidance/Agent.hpp: set_linear_velocity, set_position"]}
{"id": "C73", "title": "Where the target is missed", "statement": "The exceptions of C72: an agent straight behind the disc converges to the contact point at the back of the disc, and an agent touching the disc at the point nearest to the target never moves, although the way is free.", "quantifier": "all radii, margins, targets, gains, step lengths within bounds; all infinite runs", "why_tests_cant": "limits of infinite executions", "anchors": ["src/Modulation.cpp: modulate_velocity", "README.md: section on the algorithm, convergence towards an attractor"]}
{"id": "C74", "title": "The velocity around a grouped obstacle", "statement": "Around one obstacle at rest of any kind, the velocity is scaled along the direction from its reference point and at a right angle to the normal it reports, with the eigenvalues of the distance it reports; for an aggregate seen from outside these are the chord between two neighbouring hull corners and the distance from the hull centre over the radius of one column. (That agents do not enter aggregates is FALSE of the code: a new hull is about 5 % smaller than its primitives in the direction of some columns, so an agent heading for the centre is inside after one step, however short.)", "quantifier": "all stores, agents in the plane, aggregates with computed hulls of any resolution below 30000, all step lengths", "why_tests_cant": "quantified over all hulls and positions", "anchors": ["src/Modulation.cpp: modulate_velocity", "src/Obstacle/Aggregate.cpp: compute_normal_to_agent, compute_distance_to_point", "src/Obstacle/StarShapeHull.cpp: compute_normal_to_agent, compute_distance_to_point, compute_from_primitives"]}
{"id": "C75", "title": "The agent's size counts for every kind of obstacle", "statement": "A larger safety margin of the agent keeps it farther away from every obstacle. (FALSE of the code: when only aggregates or hulls are published the margin of the agent has no influence on the modulated velocity at all. For a single ball it counts: heading for the centre, the velocity is scaled by 1 - ((1 + margin)/distance)^2 in units of the radius.)", "quantifier": "all stores, agents, margins, options, all arithmetics", "why_tests_cant": "universally quantified over environments and agents", "anchors": ["src/Modulation.cpp: modulate_velocity", "src/Obstacle/StarShapeHull.cpp: compute_distance_to_point, compute_normal_to_agent", "src/Obstacle/Aggregate.cpp: compute_distance_to_point"]}
{"id": "C76", "title": "Grouped obstacles move the agent out of their way", "statement": "The velocities of obstacles that update() has grouped act on the agent like those of single obstacles. (FALSE of the code: published aggregates are always at rest, and the result of modulate_velocity does not depend on the velocities of the obstacles they consist of; an agent at rest among aggregates stays at rest whatever approaches, while a single ball pushes it away.)", "quantifier": "all histories, all stores that differ by the motion of grouped obstacles, all agents and options, all arithmetics", "why_tests_cant": "relates two executions, quantified over all histories", "anchors": ["src/Modulation.cpp: modulate_velocity, compute_relative_velocities", "src/Obstacle/Aggregate.cpp: Aggregate", "src/Environment.cpp: update", "src/Utils/ObstacleGeneration/Aggregation.cpp: aggregate_obstacles"]}
{"id": "C77", "title": "A control loop without update()", "statement": "If update() has not been called since the environment was created, the control loops of the example programs go straight to the target through every registered obstacle: after n rounds the remaining way is (1 - K dt)^n times the initial one, they converge exactly if |1 - K dt| < 1, and the loop of the wall program stays on the segment between start and target. The loop of the single-configuration programs, given an initial velocity, follows the blend of the desired velocities of this round and the one before and converges for K dt at most one; the platform of the guard program changes its height by the noise only. The speed limit of the programs only shortens velocities.", "quantifier": "all histories of calls without update(), all registered obstacles, gains, step lengths, targets, starts, numbers of rounds", "why_tests_cant": "all histories and all numbers of rounds", "anchors": ["tests/testConfiguration.cpp: main", "tests/testKIT.cpp: main", "tests/testWall.cpp: main", "src/Environment.cpp: update, get_obstacle_list", "src/Modulation.cpp: modulate_velocity"]}
{"id": "C78", "title": "The example programs keep the agent out of the obstacles", "statement": "The example programs have defined behaviour and keep the agent out of the obstacles. (FALSE of the code: testMovingObstacle never publishes its obstacle, which runs over the agent; its exact trajectory for every number of rounds is given. testSingleConfiguration and test3D read an uninitialised velocity in the first round, whatever the scene.) In testGuardAvoidance the guard stays above the same point of the platform. In testWall the agent stops while the target is not reachable and otherwise moves with the modulated velocity, shortened to the speed limit.", "quantifier": "all numbers of rounds; all scenes, gains and noise values for the last two programs, all arithmetics", "why_tests_cant": "all numbers of rounds; uninitialised reads go unnoticed in a test run", "anchors": ["tests/testMovingObstacle.cpp: main", "tests/testSingleConfiguration.cpp: main", "tests/test3D.cpp: main", "tests/testGuardAvoidance.cpp: main"]}
{"id": "C79", "title": "The unit tests shipped with the library hold", "statement": "The unit tests in the repository hold in exact arithmetic. (FALSE for the test of modulate_velocity, which does not call update(): it gets the unmodified velocity. With update() the expected value (-0.25, 1.25, 0) comes out exactly. The test GetList prints a reference position that was never set.)", "quantifier": "the scenes of the tests; rotations about the vertical by any angle for the tests of disjoint ellipsoids, up to 45 degrees for the touching circles; all positions, orientations and sizes for the test of registration", "why_tests_cant": "shows that a shipped test cannot pass; evidence that the model is faithful", "anchors": ["tests/testModulation.cpp: ModulateVelocity", "tests/testState.cpp", "tests/testEllipsoidObstacle.cpp", "tests/testEnvironment.cpp"]}
{"id": "C80", "title": "Obstacle weights survive rounding", "statement": "In IEEE double precision the weights given to the obstacles are finite numbers between 0 and 1, one per obstacle, and their sum is within n*2^-51 of 1; if an obstacle is within the critical distance, exactly the obstacles within it have a positive weight, all the same. (FALSE: that the sum is exactly 1, and that the weights are numbers at every finite distance: they underflow to 0/0 at 2^600.)", "quantifier": "all lists of up to 2^31 finite distances up to 2^400, every pow accurate to one unit in the last place; all distances (also NaN) and every pow when an obstacle is in contact", "why_tests_cant": "rounding errors accumulate with the number of obstacles; overflow needs extreme inputs", "anchors": ["src/Modulation.cpp: weight_obstacles"]}
{"id": "C81", "title": "Eigenvalues survive rounding", "statement": "In IEEE double precision, in contact (distance <= 1) the eigenvalues are exactly 0, 2, 2; farther away they lie in [0,1] and [1,2] and are within 2^-50 of 1 - 1/distance and 1 + 1/distance.", "quantifier": "all finite distances up to 2^1000, every pow accurate to one unit in the last place", "why_tests_cant": "quantifies over all doubles and all implementations of pow", "anchors": ["src/Modulation.cpp: compute_diagonal_eigenvalues"]}
{"id": "C82", "title": "Orientations stay unit quaternions up to rounding", "statement": "In IEEE double precision, an orientation given to a constructor (length up to 1 + 2^-14) or to set_orientation is stored with length 1 up to 2^-49; a product of n poses has an orientation of length 1 up to n*2^-47. (FALSE: exactly 1.)", "quantifier": "all finite quaternions that are not extremely short or long, all products of up to 2^46 poses", "why_tests_cant": "products are never renormalised, so the error grows with the number of factors", "anchors": ["src/State/Pose.cpp: Pose", "include/DynamicObstacleAvoidance/State/Pose.hpp: set_orientation, operator*"]}
{"id": "C83", "title": "linspace and rand_float survive rounding", "statement": "In IEEE double precision linspace returns a non-decreasing sequence within its bounds, with the bounds at its ends, for up to 2^31 points; rand_float stays between its bounds up to 2^-51 times their size, and never crosses its second bound. (FALSE: linspace between subnormal bounds overshoots, and rand_float can exceed its first bound.)", "quantifier": "all finite bounds with a finite difference of at least 2^-900, or equal; all values of rand()", "why_tests_cant": "quantifies over all doubles", "anchors": ["src/Utils/MathTools.cpp: linspace, rand_float"]}
{"id": "C84", "title": "An agent among several separate obstacles at rest never enters any of them", "statement": "Among any number of ellipsoids at rest that keep a gap between them, an agent that starts outside all of them and follows the modulated velocity with small enough steps stays outside all of them for ever, and every next step is defined; when the desired velocity falls in the band of nearly head-on deflections, it sinks in by at most 3e-12 times the length of its way.", "quantifier": "all numbers, places and shapes of separate ellipsoids, all agents, all sequences of desired velocities and any number of steps", "why_tests_cant": "quantifies over scenes and unbounded control loops; close to one obstacle the others still have a share in the velocity", "anchors": ["src/Modulation.cpp: modulate_velocity, compute_weights, weighted_sum", "src/Obstacle/Ellipsoid.cpp: compute_distance_to_point", "src/Agent.cpp: set_position"]}
{"id": "C85", "title": "Agents are values", "statement": "In a program with several agents, every variable behaves as an agent of its own: a declaration, copy, assignment or call changes only the variable it is written for. (TRUE without assignment between variables. FALSE with it: from x = y on, both share one envelope for ever, and an agent whose envelope went away with the other one walks into an obstacle when modulated locally.)", "quantifier": "all programs: sequences of declarations, copies, assignments and calls on any number of agents", "why_tests_cant": "quantifies over histories of statements on several objects; aliasing shows only in combinations", "anchors": ["include/DynamicObstacleAvoidance/Agent.hpp: Agent, set_position, get_envelope", "src/Agent.cpp: Agent, update_envelope", "src/Modulation.cpp: modulate_velocity"]}
{"id": "C86", "title": "A pose built from seven numbers is the pose they describe", "statement": "Pose(px, py, pz, ...) with the components of a unit quaternion gives the pose with that position and rotation. (TRUE with the order qw, qx, qy, qz of the definition. FALSE with the order qx, qy, qz, qw of the header, except when the components are all equal or alternate in sign; the identity becomes half a turn.)", "quantifier": "all positions and all unit quaternions", "why_tests_cant": "no test calls this constructor; the statement quantifies over all rotations", "anchors": ["include/DynamicObstacleAvoidance/State/Pose.hpp: Pose", "src/State/Pose.cpp: Pose"]}
{"id": "C87", "title": "Obstacles keep the attributes they are given", "statement": "A constructed ellipsoid has the name, state, reference position and margin given to the constructor and unit axes and curvature; after any sequence of setter calls every getter returns the last value written for it (set_orientation normalises), and so for the shared attributes of obstacles of every kind, whose shape the calls do not touch; a copy has the same attributes as the original. (FALSE: that moving an obstacle with set_position moves its reference position; a moved obstacle may attract agents. An ellipsoid without a reference position cannot be copied without reading an uninitialised value.)", "quantifier": "all ellipsoids and all sequences of setter calls", "why_tests_cant": "quantifies over all call sequences and all values", "anchors": ["src/Obstacle/Obstacle.cpp: Obstacle, set_position, set_reference_position, get_reference_position", "src/Obstacle/Ellipsoid.cpp: Ellipsoid, set_axis_lengths, set_curvature_factor"]}
{"id": "C88", "title": "Printed texts show the object", "statement": "Two obstacles, aggregates or agents whose printed texts are equal are of the same kind, have the same names and the same shown digits of every attribute; the obstacles of a printed aggregate correspond in order. With all digits shown the text determines an ellipsoid. The lines come in a fixed order, the margin as a row of right-aligned numbers, and the printed angle and axis are those of the orientation. Printing returns exactly when every object it prints has a reference position, and the message of an exception identifies the failure and the name it is about. (FALSE: that every obstacle can be printed; an obstacle created by its name only has no reference position.)", "quantifier": "all obstacles, nested aggregates and agents, all names without line ends and all ways of writing numbers", "why_tests_cant": "tests compare no texts; the statement quantifies over pairs of objects and nesting depth", "anchors": ["include/DynamicObstacleAvoidance/Obstacle/Obstacle.hpp: print, operator<<", "include/DynamicObstacleAvoidance/Obstacle/Ellipsoid.hpp: print", "include/DynamicObstacleAvoidance/Obstacle/Aggregate.hpp: print", "include/DynamicObstacleAvoidance/State/Pose.hpp: operator<<", "include/DynamicObstacleAvoidance/State/State.hpp: operator<<", "include/DynamicObstacleAvoidance/Agent.hpp: operator<<", "include/DynamicObstacleAvoidance/Exceptions/ObstacleAlreadyExistsException.hpp", "include/DynamicObstacleAvoidance/Exceptions/ObstacleNotInEnvironmentException.hpp"]}
{"id": "C89", "title": "Agents keep the attributes they are given", "statement": "A constructed agent has the given state and margin and, as envelope, a unit ball at its position. Any sequence of setter and transform calls on it returns; afterwards every attribute is what the calls wrote to it, in order, and no call touches an attribute it is not about. The envelope keeps its name, is never given a velocity or a margin, and its reference position is its centre. A copy has the attributes of the original.", "quantifier": "all states, margins and sequences of calls, in any arithmetic", "why_tests_cant": "quantifies over all call sequences and all values", "anchors": ["include/DynamicObstacleAvoidance/Agent.hpp: Agent, setters, getters, transform", "src/Agent.cpp: Agent, update_envelope"]}
{"id": "C90", "title": "The arc cosine is only evaluated inside its domain", "statement": "Whatever rounding did before, modulate_velocity (for ellipsoids) never depends on the value of acos outside [-1, 1]: two mathematical libraries which agree there give the same velocity. So a direction that is unchanged up to rounding never gives an undefined deflection.", "quantifier": "all lists of ellipsoids, agents, options; all arithmetics, in particular doubles with any mathematical library", "why_tests_cant": "quantifies over all rounding errors", "anchors": ["src/Modulation.cpp: modulate_velocity, safe_acos"]}
{"id": "C91", "title": "The programs with random scenes: testConfiguration, testSingleConfiguration, test3D", "statement": "Whatever the seed and the values of rand(), testConfiguration runs all its simulations to the end: every scene has three registered obstacles with agent and target clear of them, and one picture is saved per simulation. (Found: because update() is never called, the agent goes in a straight line, possibly through obstacles, and the pictures are empty; the seed in a picture's name does not determine the scene, which also depends on the compiler's order of evaluation; testSingleConfiguration and test3D read an uninitialised velocity in their first step.)", "quantifier": "all values of the random number generator and of the clock, every order in which a compiler evaluates the arguments, any number of simulations and steps", "why_tests_cant": "quantifies over all random sequences; the pictures are never checked", "anchors": ["tests/testConfiguration.cpp: main", "tests/testSingleConfiguration.cpp: main", "tests/test3D.cpp: main", "src/Utils/MathTools.cpp: rand_float"]}
{"id": "C92", "title": "The programs with fixed scenes: testKIT, testWall, testMovingObstacle, testGuardAvoidance", "statement": "These programs run to the end, and every recorded position and the final state are given in closed form; obstacles are left unchanged unless the program moves them. The pictures go to files numbered in the order of the rounds, none replacing another of the same run. (Found: because update() is never called, agents go in straight lines into the margins or the obstacles themselves and no picture shows an obstacle.)", "quantifier": "all seeds, all values of the noise of testGuardAvoidance", "why_tests_cant": "quantifies over all noise; nothing is asserted by these programs", "anchors": ["tests/testKIT.cpp: main", "tests/testWall.cpp: main", "tests/testMovingObstacle.cpp: main", "tests/testGuardAvoidance.cpp: main"]}
{"id": "C93", "title": "After update() pictures show every registered obstacle", "statement": "After update(), with or without aggregation, drawing the published obstacles returns, and the drawing contains everything that drawing each registered obstacle on its own draws, also for obstacles which have disappeared into an aggregate; in particular every named ellipsoid has its name written at its centre. testOptimization runs to the end and shows all its eight obstacles.", "quantifier": "all histories of an environment, all scenes of objects that are not shared, all arithmetics", "why_tests_cant": "quantifies over all histories and groupings; drawings are not tested", "anchors": ["src/Utils/Plotting/PlottingTools.cpp: plot_obstacles", "src/Utils/ObstacleGeneration/Aggregation.cpp: draw, update_hull", "src/Environment.cpp: update", "tests/testOptimization.cpp: main"]}
{"id": "C94", "title": "The velocity field is homogeneous in the velocities", "statement": "If the desired velocity of the agent and the linear and angular velocities of all obstacles are multiplied by one positive number, then modulate_velocity without repulsion returns the same velocity multiplied by this number, and fails in the same way where it fails. This holds for all kinds of obstacles and with and without the restriction to the agent's envelope. With repulsion it is false.", "quantifier": "all scenes of ellipsoids, hulls, aggregates and other obstacles, all agents, all positive factors, all critical distances and weight powers", "why_tests_cant": "quantifies over all scenes, velocities and factors", "anchors": ["src/Modulation.cpp: modulate_velocity, compute_relative_velocities", "src/Agent.cpp: set_linear_velocity"]}
{"id": "C95", "title": "The unit of length does not matter", "statement": "For ellipsoids with unit curvature factors: if positions, axis lengths, margins, reference positions and linear velocities of agent and obstacles are all multiplied by one positive number, then normal directions and distance values are unchanged and the modulated velocity is multiplied by this number, as long as all lengths exceed 1e-4. It is false for curvature factors that differ between the axes and for lengths of 1e-4 or less.", "quantifier": "all lists of ellipsoids, all agents, all positive factors", "why_tests_cant": "quantifies over all scenes and factors", "anchors": ["src/Modulation.cpp: modulate_velocity", "src/Obstacle/Ellipsoid.cpp: compute_normal_direction, compute_distance_to_point"]}
{"id": "C96", "title": "Left and right are treated alike", "statement": "If a scene of ellipsoids with whole curvature factors and its agent are replaced by their mirror image at a coordinate plane (positions, orientations, velocities, reference positions; the sense of rotation is reversed), then the modulated velocity is the mirror image of the original one; also with repulsion and for moving obstacles. Consequently, in a scene that is its own mirror image an agent in the plane of symmetry gets a velocity in that plane. It is false for other curvature factors.", "quantifier": "all lists of ellipsoids, all motions, all agents, all changes of sign of the coordinates", "why_tests_cant": "quantifies over all scenes; the choice of tangent vectors is not symmetric, so it is not obvious", "anchors": ["src/Modulation.cpp: modulate_velocity, compute_basis_matrices", "src/Obstacle/Ellipsoid.cpp: compute_normal_direction, compute_distance_to_point"]}
{"id": "C97", "title": "The lines printed on the standard error stream do not interfere and are complete", "statement": "Forgetting the diagnostics, every query and modulate_velocity return what they return without them. In scenes of ellipsoids a call prints only: 'Problem here' at most once per obstacle, then possibly the line about the repulsion, then possibly the line about NaN; in planar scenes the lines are known exactly, and nothing is printed when every distance value is at least 1.1 and no reference direction is nearly tangent. Obstacles that are neither ellipsoids nor aggregates are never in sight of a local call: the velocity is returned unchanged, with one line for each of them; a hull used as an obstacle never repels, it prints a line instead.", "quantifier": "all scenes, agents, arithmetics and options", "why_tests_cant": "quantifies over all scenes; the tests do not look at the standard error stream", "anchors": ["src/Modulation.cpp: modulate_velocity, compute_basis_matrices", "src/Obstacle/Obstacle.cpp: compute_normal_to_agent, compute_distance_to_point, is_intersecting, point_is_inside, compute_repulsion_vector, compute_interesection_points"]}
{"id": "C98", "title": "The line about NaN and the velocity zero", "statement": "Whenever modulate_velocity prints that the velocity contains NaN it returns the zero velocity; whenever a coordinate of the desired velocity is NaN and there is an obstacle, a global call prints this line and returns zero, in IEEE binary64 as in the extended reals; in exact arithmetic the line never appears.", "quantifier": "all scenes, agents, options and arithmetics in which NaN spreads through sums, differences, products and quotients", "why_tests_cant": "quantifies over all inputs and over the accuracy of the mathematical functions", "anchors": ["src/Modulation.cpp: modulate_velocity"]}
{"id": "C99", "title": "The line about the repulsion", "statement": "With repulsion switched on, the line 'Agent in obstacle, repulsion activated' is printed exactly when the returned velocity differs from the one without repulsion, and then the difference is longer than 1e-4. (Found: the line is also printed when the agent is outside every obstacle, and it is not printed for an agent in the middle of overlapping obstacles whose repulsions cancel.)", "quantifier": "all scenes of all kinds of obstacles, all agents and options", "why_tests_cant": "quantifies over all scenes; the tests do not look at the standard error stream", "anchors": ["src/Modulation.cpp: modulate_velocity", "src/Obstacle/Obstacle.cpp: generate_repulsion"]}
{"id": "C100", "title": "The line 'Problem here'", "statement": "Without shifting of reference points, 'Problem here' is printed exactly when for some obstacle the agent is at the reference point or the reference direction is within a sine of 1e-4 of the chosen tangent. When it is not printed, the modulation matrix of every obstacle has the reference direction and two tangents as eigenvectors with the documented eigenvalues.", "quantifier": "all scenes of all kinds of obstacles, all agents and options", "why_tests_cant": "quantifies over all scenes; the tests do not look at the standard error stream", "anchors": ["src/Modulation.cpp: compute_basis_matrices, compute_modulation_matrix"]}
{"id": "C101", "title": "In continuous time the agent never enters moving obstacles", "statement": "An agent whose velocity at every moment is the answer of the library, moving among any number of ellipsoids which move and turn horizontally as they announce, which overlap no critical zone of each other and have their reference points inside, and which starts in none of them, never gets into one of them: the distance value stays at least 1, provided the deflections at contact are not in the 1e-4 band. In general the distance value falls below 1 by at most 2e-12 for every half-length the agent moves relative to the obstacles.", "quantifier": "all differentiable motions of all planar agents and any number of ellipsoids, all desired velocities, for all time", "why_tests_cant": "quantifies over all trajectories in continuous time; the tests take single steps", "anchors": ["src/Modulation.cpp: modulate_velocity, compute_modulation_matrix", "src/Obstacle/Ellipsoid.cpp: compute_distance_to_agent, compute_normal_to_agent"]}
{"id": "C102", "title": "The answers do not jump", "statement": "While the agent (place, desired velocity, margin) and the obstacles (pose, velocities, size, reference point) change continuously, so does the returned velocity, up to a ten-millionth of its size (the 1e-4 band), for any number of ellipsoids in a horizontal planar configuration as long as at most one of them is critical at the moment. (FALSE when a second obstacle becomes critical, and FALSE with repulsion, which sets in with a jump.)", "quantifier": "all continuously changing planar scenes, any number of ellipsoids, all desired velocities, critical distances of at least 1 and positive weight powers", "why_tests_cant": "continuity quantifies over infinitely many nearby scenes", "anchors": ["src/Modulation.cpp: modulate_velocity, weight_obstacles, compute_modulation_matrix", "src/Obstacle/Obstacle.cpp: generate_repulsion"]}
{"id": "C103", "title": "Nothing is kept alive in vain", "statement": "After update() the environment keeps alive exactly the registered obstacles (with their primitives) and the aggregates it has just published, at most half as many as there are registered obstacles; removed obstacles and the aggregates of earlier updates are let go. What was published stays alive until the next update(), whatever is removed meanwhile. No call builds a cycle of shared pointers: adding an aggregate to one of its own parts never returns. remove_obstacle alone does not release the obstacle.", "quantifier": "every history of additions, removals, assignments, updates and changes of the obstacles, every grouping", "why_tests_cant": "Leaks show only after long histories; tests look at a few calls.", "anchors": ["src/Environment.cpp: update, remove_obstacle, operator[]", "src/Utils/ObstacleGeneration/Aggregation.cpp: aggregate_obstacles", "src/Obstacle/Aggregate.cpp: add_primitive"]}
{"id": "C104", "title": "Every drawing reaches matplotlib as it was made", "statement": "Drawing an obstacle, a list of obstacles, an agent, a trajectory or a configuration calls the matching matplotlib.pyplot functions (savefig of pylab for saving), once per drawing command and in the order of the commands, with the numbers and texts of the commands (texts up to their first NUL); if a call other than plot fails, the drawing ends there with the exception 'Call to X() failed.'; a failing plot is passed over without notice (so failures are not always reported: refuted) and a name with a NUL is not shown in full (refuted).", "quantifier": "every drawing of the library of any number of obstacles of any kind, every behaviour of Python on each of the calls", "why_tests_cant": "Tests look at pictures of a few scenes, in installations where every call succeeds.", "anchors": ["include/DynamicObstacleAvoidance/Utils/Plotting/matplotlibcpp.hpp: plot, text, figure, xlim, ylim, subplot, save, show, close", "src/Utils/Plotting/PlottingTools.cpp: plot_configuration"]}
{"id": "C105", "title": "Drawing does not leak Python objects", "statement": "After a drawing that ends normally the program holds no more references to Python objects than before. After one that ends with an exception because a call with arguments failed it keeps the arguments of that call for ever (so exceptions leak: refuted).", "quantifier": "every drawing of the library, every sequence of showable drawing commands in a running interpreter, every behaviour of Python on the calls", "why_tests_cant": "Leaked references are invisible in a test run; failing calls have to be provoked.", "anchors": ["include/DynamicObstacleAvoidance/Utils/Plotting/matplotlibcpp.hpp: plot, text, figure, xlim, ylim, subplot, save, show, close"]}
{"id": "C106", "title": "Drawing does not crash the program", "statement": "No sequence of drawings crashes, even if some of them end with exceptions that the program catches, whichever of the modules matplotlib, matplotlib.pyplot, matplotlib.cm and pylab or of their functions are missing and whatever the calls do, as long as names are UTF-8 and numpy can be imported; if matplotlib is missing, or one of the functions it must have, the exception says so and nothing is drawn. This includes drawing whatever update() published. Names that are not UTF-8, a missing numpy, and text, limits, subplot or save as first call of a program crash it (refuted).", "quantifier": "every sequence of drawings of the library, every installation, every behaviour of Python on the calls", "why_tests_cant": "Broken installations and failing calls are not part of test set-ups; the sequences are unbounded.", "anchors": ["include/DynamicObstacleAvoidance/Utils/Plotting/matplotlibcpp.hpp: _interpreter, get_array, text, save, xlim, ylim, subplot", "src/Obstacle/Obstacle.cpp: draw", "src/Utils/Plotting/PlottingTools.cpp: plot_obstacles"]}
{"id": "C107", "title": "The example programs draw what they mean to, and do not crash", "statement": "Whatever rand(), the clock and the noise are, the drawing commands of testConfiguration, testKIT, testWall, testMovingObstacle, testGuardAvoidance and testOptimization never crash the program where numpy is installed: they are carried out or end with an exception. Where the calls succeed, every command reaches matplotlib in order, the pictures are written to the files of C91 and C92, and no Python object is held at the end.", "quantifier": "all random sequences, seeds and noise, all states of the Python installation with numpy, every representation of numbers", "why_tests_cant": "quantifies over all random numbers and over what Python may answer; tests have no assertions", "anchors": ["tests/testConfiguration.cpp: main", "tests/testKIT.cpp: main", "tests/testWall.cpp: main", "tests/testMovingObstacle.cpp: main", "tests/testGuardAvoidance.cpp: main", "tests/testOptimization.cpp: main", "include/DynamicObstacleAvoidance/Utils/Plotting/matplotlibcpp.hpp: figure, plot, text, save"]}
{"id": "C108", "title": "How std::sort orders equal elements does not matter", "statement": "Whatever (correct) sorting routine the standard library provides: if different registered obstacles have different current names, update() publishes the same list and leaves the same obstacles, the same groups, names, positions and reference points, and throws or is undefined in the same cases; on level ground (ellipsoids turned about the vertical axis at one height, none with its y axis exactly in one of the 500 directions) the outlines of the aggregates are the same too. (For obstacles at different heights it is FALSE: the outline of an aggregate depends on the order of intersection points at the same distance.)", "quantifier": "every routine that returns a sorted permutation when the comparison is a strict weak order, every environment, every store; every representation of numbers for the groups, exact arithmetic for the outlines", "why_tests_cant": "a test runs with the one routine of one standard library", "anchors": ["src/Obstacle/Aggregate.cpp: Aggregate, add_primitive", "src/Obstacle/StarShapeHull.cpp: compute_from_primitives", "src/Utils/MathTools.cpp: sorted_cols_by_theta", "src/Environment.cpp: update"]}
{"id": "C109", "title": "Distances and inside tests survive rounding", "statement": "In double precision, for ellipsoids with curvature factors 1, half-lengths of at least 2^-13 and coordinates up to 2^30 times the smallest half-length: the coordinates of a point in the frame of a pose are right up to 2^-42 of the largest coordinate; the distance reported for a point or an agent is finite and equals the value of the quadratic form v up to 2^-39 (1+v) times the ratio of the largest coordinate to the smallest half-length; and the inside test is right for every point with |v-1| of at least 2^-37 times that ratio. Points exactly on the boundary can be reported as outside (so exactly the closed ellipse is inside: refuted).", "quantifier": "all finite positions, axes and margins in that range, all orientations the constructors can produce (length 1 up to 2^-49), every mathematical library whose pow(x,2) is accurate to one unit in the last place", "why_tests_cant": "A test compares a few numbers with a tolerance somebody chose; the error bound must hold for all of them.", "anchors": ["src/Obstacle/Ellipsoid.cpp: compute_distance_to_point, point_is_inside", "src/Obstacle/Obstacle.cpp: compute_distance_to_agent", "src/State/Pose.cpp: operator*, inverse"]}
{"id": "C110", "title": "Normals survive rounding", "statement": "In double precision, for ellipsoids with curvature factors 1, half-lengths (including the margins of the obstacle and of the agent) between lo and 32 lo, lo of at least 2^-13, coordinates up to S, at most 2^20 lo, and an agent at least lo away from the centre: the normal reported is finite, and each of its coordinates differs from the exact unit normal of the enlarged ellipsoid, in the frame of the obstacle, by at most 2^-28 S/lo.", "quantifier": "all finite positions, axes and margins in that range, all orientations the constructors can produce (length 1 up to 2^-49), every mathematical library whose pow(x,1) is accurate to one unit in the last place", "why_tests_cant": "A test compares a few numbers with a tolerance somebody chose; the error bound must hold for all of them.", "anchors": ["src/Obstacle/Ellipsoid.cpp: compute_normal_to_agent", "src/State/Pose.cpp: operator*, inverse"]}
{"id": "C111", "title": "The modulated velocity stays finite in double precision", "statement": "In double precision, with the default critical distance and weight power, without planar modulation, with or without repulsion, and with or without restriction to the surroundings (for an agent with an envelope): if every obstacle is an ellipsoid as in C110 with its reference point at its centre, coordinates up to 2^100 and speeds up to 2^60, and the agent is at least the smallest half-length away from each centre, then modulate_velocity ends normally with finite numbers, leaves the obstacles as they are. It prints nothing about NaN; without repulsion and restriction it prints at most the warning of the basis, once per obstacle. In particular the matrix inverse never divides by zero.", "quantifier": "all numbers of up to 2^31 obstacles, inside or outside of them, all finite positions, axes, margins and velocities in that range, every mathematical library whose pow is accurate to one unit in the last place and whose sine, cosine, exponential and arc cosine stay within their ranges", "why_tests_cant": "Overflow, division by a vanishing determinant and NaN occur on inputs nobody thinks of; a test tries a few.", "anchors": ["src/Modulation.cpp: modulate_velocity, compute_modulation_matrix, compute_basis_matrices, compute_relative_velocities", "src/Obstacle/Ellipsoid.cpp: compute_normal_to_agent"]}
{"id": "C112", "title": "Speed limits and time steps survive rounding", "statement": "In double precision: the speed limit of the example programs returns a finite velocity which exceeds the limit by less than one part in 10^14, does not touch velocities below the limit and keeps the direction of faster ones; adding dt times a velocity to the position again and again, as their control loops do, drifts from the exact sum by at most two parts in 10^15 of the range of the motion per step; and among usual ellipsoids (C111) a round of the loops of testConfiguration and testKIT ends normally with a finite position, dt times the modulated velocity away from the old one up to two roundings.", "quantifier": "all velocities up to 2^400 and limits between 2^-100 and 2^100; all sequences of up to 2^31 steps with a range up to 2^300; all agents, targets, gains and time steps within 2^40, 2^40, 2^10 and 2^10", "why_tests_cant": "Rounding errors add up over all rounds of a run of any length; tests run a few rounds and cannot see what happens for other velocities.", "anchors": ["tests/testConfiguration.cpp: main", "tests/testKIT.cpp: main", "tests/testWall.cpp: main", "tests/testMovingObstacle.cpp: main", "src/Agent.cpp: set_linear_velocity, set_position"]}
{"id": "C113", "title": "The wall program keeps its speed limit in double precision", "statement": "In double precision, however many rounds the loop of testWall makes: as long as the obstacles are usual ellipsoids (C111) where the agent comes along, every round ends normally, the obstacles stay as they are, the agent's position stays finite, and after n rounds no coordinate differs from where it started by more than n dt times the speed limit, up to one part in 10^14 of the limit and two parts in 10^15 of the range of the motion per round. It is enough that the obstacles are usual within the distance the agent can cover.", "quantifier": "all numbers of rounds up to 2^31, of obstacles up to 2^31, all agents, targets and gains within 2^40, 2^40 and 2^10, all speed limits between 2^-100 and 2^100 with a range up to 2^39, every mathematical library as in C111", "why_tests_cant": "The speed limit must hold in every round of a run of any length, whatever rounding does; a test looks at one run.", "anchors": ["tests/testWall.cpp: main", "src/Modulation.cpp: modulate_velocity", "src/Agent.cpp: exist_path, set_linear_velocity, set_position"]}
{"id": "C114", "title": "The moving-obstacle program stays finite and within its speed limit in double precision", "statement": "In double precision, however many rounds the loop of testMovingObstacle makes: as long as the listed obstacles are usual ellipsoids (C111) and the one registered as w1 stays within 2^40, every round ends normally; after n rounds the agent is at a finite place, in no coordinate further from where it started than n dt times the speed limit, up to rounding as in C113; w1 is exactly where n steps towards its target take it, whatever the agent does, with its reference point at its centre; its axes and all other obstacles are as before. When 0 <= Kp dt <= 1, w1 comes closer to its target by the factor 1 - Kp dt in every round, up to n 2^-48 times the size of its coordinates, and need not be assumed to stay in a range; in the program itself it goes from (5, 0, 0) towards (-5, 0, 0) in this way for any number of rounds.", "quantifier": "all numbers of rounds up to 2^31, of obstacles up to 2^31, all agents, targets and gains within 2^40, 2^40 and 2^10, all speed limits between 2^-100 and 2^100 with a range up to 2^39, every mathematical library as in C111", "why_tests_cant": "The limit must hold in every round of a run of any length, with an obstacle whose velocity and position change in every round; a test looks at one run.", "anchors": ["tests/testMovingObstacle.cpp: main", "src/Modulation.cpp: modulate_velocity", "src/Environment.cpp: operator[]", "src/Agent.cpp: set_linear_velocity, set_position"]}
{"id": "C115", "title": "Without obstacles the agent converges to its target in double precision", "statement": "In double precision, with no obstacle in the environment and 0 <= Kp dt <= 1, n rounds of the loop of testConfiguration and testKIT (aim at the target, modulate, step) end normally for every setting of the local-avoidance and repulsion flags, leave every obstacle object alone, and bring the agent to target + (1 - Kp dt)^n (start - target), up to n 2^-48 times the size of the coordinates; the position never leaves twice the box that holds start and target.", "quantifier": "all numbers of rounds up to 2^31, all starts and targets up to 2^99, all gains and time steps up to 2^10 with a product of at most 1, both flags, every mathematical library", "why_tests_cant": "Rounding errors could add up over the rounds or push the agent away from the target; a test runs one start and one number of rounds.", "anchors": ["tests/testConfiguration.cpp: main", "tests/testKIT.cpp: main", "src/Modulation.cpp: modulate_velocity", "src/Agent.cpp: set_linear_velocity, set_position"]}
{"id": "C116", "title": "A round of the guard program stays finite and within its speed limits in double precision", "statement": "In double precision, with no listed obstacle for the guard and usual ellipsoids (C111) for the platform, a round of the loop of testGuardAvoidance ends normally and changes no obstacle; the platform ends in a finite place, in no coordinate further from where it was than dt times its speed limit plus the noise drawn for it, up to a relative error of 2^-50; the height of the guard changes by at most dt times the guard's speed limit plus its noise, likewise; the other two coordinates of the guard are exactly those of its mounting point on the platform.", "quantifier": "all platforms and guards, targets up to 2^40, numbers of platform obstacles up to 2^31, noise up to 2^300, gains up to 2^10, speed limits of at least 2^-100 and up to 2^50 (guard) and 2^100 (platform), every mathematical library as in C111", "why_tests_cant": "The noise is random and the limits must hold for every draw, every position and every obstacle; a test sees one draw.", "anchors": ["tests/testGuardAvoidance.cpp: main", "src/Modulation.cpp: modulate_velocity", "src/Agent.cpp: set_linear_velocity, set_position"]}
