# Formal model of dynamic_obstacle_avoidance_cpp: design

## 1. What is modelled

The whole library under `/repo/src` and `/repo/include` (exceptions in 5), function by
function, as total computable Gallina functions.  Every definition cites the file and lines it models.

| model file | code |
|---|---|
| `Num.v` | the `double` type: a record `Num F` of operations; instance `Rnum` (exact reals) |
| `NumB.v` | the `double` type as IEEE binary64 (Flocq), the functions of <cmath> a parameter |
| `Eigen.v` | the fragment of Eigen used (vectors, 3x3 matrices, quaternions, AngleAxis) |
| `PrintModel.v` | `print` and `operator<<` of all classes, messages of the exceptions |
| `Outcome.v` | outcome of a call: value, exception, undefined behaviour; `std::sort` |
| `MathModel.v` | `Utils/MathTools` |
| `Types.v` | data: Pose, State, obstacles (heap of objects reached through `shared_ptr`), Agent, Environment |
| `PoseModel.v` | `State/Pose`, `State/State` |
| `ObstacleModel.v` | `Obstacle`, `Ellipsoid`, `StarShapeHull`, `Aggregate` |
| `AgentModel.v` | `Agent` |
| `StoreModel.v` | several `Agent` variables, implicit copy assignment |
| `EnvModel.v` | `Utils/ObstacleGeneration/Aggregation`, `Environment` |
| `ModulationModel.v` | `Modulation` |
| `PlotModel.v` | `draw` of all obstacles, `Utils/Plotting/PlottingTools`: the list of calls to matplotlib, in order |
| `PyModel.v` | `Utils/Plotting/matplotlibcpp.hpp`, the functions the library calls: start of the interpreter, the objects handed to Python with the references held on them, failing calls; Python itself is a parameter |
| `ProgramModel.v` | the control loops of the example programs in `/repo/tests` (the rounds of the loops) |
| `SortModel.v` | the callers of `std::sort`, for an arbitrary sorting routine |
| `MainModel.v` | `main` of the example programs: scenes, random choices, loops, recorded positions, pictures |

### Arithmetic
The model is written once, polymorphically over `Num F`.  A theorem is stated for
* **P**: every `Num F` (sometimes with one or two named laws such as "0 is not NaN"): it then holds in
  particular for IEEE binary64 with rounding, infinities and NaN;
* **R**: exact real arithmetic `Rnum`.  Coq's total `/`, `sqrt`, `acos` have junk values outside their domain, so
  R-theorems carry the guards that exclude it (non-zero denominators, arguments in the domain);
* **X**: reals extended with IEEE special values (signed zeros, infinities, NaN), used where the special
  values are the point (vertical lines, agent at the centre of an obstacle...).
* **B**: IEEE binary64 with round-to-nearest-even (`NumB.v`, Flocq's `binary_float 53 1024`).  Each operation is rounded on its own, in the
  order in which the model writes it: contraction to fused operations and reordering of sums by the compiler or by Eigen's vectorisation are
  excluded.  pow, exp, sin, cos, acos, atan2 are arbitrary functions; where needed `accurate_pow` asks pow for one unit in the last place.
For the other properties (all but C80-C83 and C109-C116) rounding errors are not quantified: R and X theorems say what the algorithm computes, not how far rounding takes it away.

### Objects and aliasing
`heap` is a list of obstacle objects, `loc` an index in it; allocation appends.  A `shared_ptr` is a `loc`, a null
pointer `None` (`option loc`) where null is possible.  Deallocation is not modelled (an unreachable object just
stays).  An object is one of `OBase`, `OEll`, `OAgg`, `OHull` (its dynamic type, which is also what the `type`
string says).  Virtual calls are matches on it.

### Undefined behaviour
`res A := Ok | Exc | Undef`.  Undefined behaviour is a separate outcome (null dereference, out-of-range index,
read of an uninitialised vector, modulo 0, unbounded recursion through a cyclic aggregate).  No theorem treats
it as a value.

### Assumptions about libraries (trusted)
* Eigen >= 3.3.5 semantics as written in `Eigen.v`: `normalize` leaves a vector unchanged unless its squared norm is
  positive; `AngleAxis(q)` uses `2*atan2(|vec|,|w|)`; 3x3 `inverse` is cofactors times 1/det without a check;
  `Quaternion::inverse` is conj/norm^2; `Quaternion * Matrix` goes through `toRotationMatrix`.
* `std::sort` returns a sorted permutation; ties are kept in input order.  C++ leaves them unspecified: C108 shows for which scenes another order gives the same results.
* `std::lower_bound` is the libstdc++ halving loop (it is used on rows that may be unsorted).
* `std::map<std::string,...>` iterates in increasing byte order (`String.ltb`).
* `abs` on doubles resolves to the floating point overload.

## 2. How properties are stated
`Spec*.v` files contain specification vocabulary written independently of the model's helpers (finite-map semantics, connected
components, ellipse equations, ...).  `Prop*.v` files contain only property theorems, each closed by `exact lemma`,
followed by `Print Assumptions` and by an `Example` showing that a concrete non-trivial case meets its hypotheses.
`*_refuted` theorems show that a property fails of the faithful model: these are findings about the code (section 4).

## 3. Plan per property
* C01, C02, C58 (P): operations as state transformers; refinement to a function `string -> option loc` by induction over histories
  with arbitrary heap changes between calls.
* C03, C04 (P): invariant "keys strictly sorted" over histories; the list only written by update.
* C05-C08 (P): invariant of the double loop of `aggregate_obstacles`: after processing a set of pairs, the index array is a partition equal
  to the equivalence closure of the intersecting pairs seen so far, aggregates hold exactly their class.  The intersection
  test is shown not to depend on what update mutates (reference positions).
* C09, C11, C13, C14, C19(w=0), C36, C37, C38, C41 etc.: refutations by explicit witnesses.
* C10, C15, C39 (P): direct characterisation by induction over lists / fuel.
* C12 (R), C16, C26-C35 (R): geometry over reals; quaternion algebra by `field`/`nsatz`-style normalisation, then inequalities by `nra`.
* C17-C19 (R): quaternion algebra.
* C20, C21 (P for end points/lengths, R for spacing), C22 (R: atan2/acos identities), C23, C24 (P with an ordering law / R), C25 (R).
* C40 (R), C42, C43 (R, limit with Coquelicot-free epsilon statement).
* C44 (R): matrix algebra with `minv` under det <> 0.
* C45-C47 (P).
* C48-C50, C55-C57 (R): planar reconstruction lemma: for a unit planar vector e1, frame (e1,e2,e3) orthonormal, a vector w in the plane with angle
  `acos` satisfies reconstruct = w; error bound for the small-angle branch from Taylor bounds of sin and cos.
  C50 is an induction over the list of commanded velocities with invariant distance >= 1.
* C51, C52 (R): explicit rational witnesses.  The positive part of C52 (`ModSeveral.v`): the mean of the deflections lies between two of them, and the directions not going against `N` form an interval shorter than half a turn.
* C53 (R): weights, sums and magnitudes are symmetric functions.
* C54 (R): equivariance of every ingredient under yaw and translation.
* C59 (R): angular neighbours of a crossing plus the smoothing factor.  C60 (P): every step of modulate_velocity is total on ellipsoids.
* C61, C62 (R): the modulation matrix is injective away from contact; norms of reconstructed vectors; a family of walls refutes a bound.
* C63, C64 (R): explicit formula for one obstacle in space from the non-orthonormal frame.  C65 (R): chord midpoint as reference.
* C66, C67, C69 (R/P): trigonometric identities at the end points of linspace.  C68 (P): induction over lists and ranks.
* C70, C71 (P): invariant of rebuilding an aggregate, from C05-C08; sorted lists with distinct names are determined by their elements.
* C72, C73 (R): the control loop around one disc, in units of the radius and in the axes (target direction, perpendicular), is a planar map
  (LoopMath.v) known up to the error of the linearised reconstruction (LoopBand.v); it keeps the side of the axis, the direction settles
  towards the target, then the distance contracts. The axis itself is invariant and treated separately.
* C74 (R): `one_static` feeds whatever normal and distance an obstacle reports through the eigenvector theorem of the modulation matrix (C20)
  and the planar reconstruction; for aggregates the look-up theorem C38 (now with the corners named) supplies normal and distance.
  The refutation evaluates columns 2 and 3 of the new hull of a unit ball (radius 0.9475) by the closed form of the smoothing recurrence.
* C75, C76 (P): frame arguments: two runs of `modulate_velocity` whose inputs differ by the margin (no ellipsoid listed) or by velocities of
  objects that are not listed go through the same steps. C11 positive: the joined names parse uniquely. C09 universal: C06 and C07 chained.
* C77, C78 (R, P): the loops as iterated state transformers; without `update()` the list is empty (C04), so a round is the affine map
  x -> g + (1 - K dt)(x - g), closed form by induction on the number of rounds.
  The blended loop: the larger of the last two offsets shrinks by 1 - 0.6 K dt every second round.
* C79 (R): fidelity evidence. All unit tests of the repository, run on the model: `UnitTests.v`, `UnitTests2.v` (rotated obstacles: Taylor bounds of
  sin and cos, bounds of pi from Machin's formula, one boundary sample of each ellipse located by hand) and `EnvTests.v` (the Aggregation test: each
  update() by C05-C06, the obstacles tracked up to their reference positions).
* C80-C83 (B): rounding lemmas in `FloatBase.v` (from Flocq), then: monotonicity of rounding for the ranges (weights and eigenvalues in
  [0,1] and [1,2], bounds of rand_float, order of linspace), accumulated relative errors for sums, norms and products of quaternions
  (`near` in `FloatQuat.v`), induction on the number of obstacles and of factors.  `rounded_libm` shows that `accurate_pow` can be met.
* C84 (R): the step of `FieldProofs.v`.  At distance value `d` of the only near obstacle its weight is at least `1 - n (d-1)/gap`, the mean
  deflection is Lipschitz in the weights, so the velocity misses the tangent half-plane by at most a multiple of `d - 1`; the distance value
  grows quadratically with the step, so a short step cannot cross 1.  Induction over the steps.  Separation is needed: see C52.
* C85 (P): memory with shared envelopes (`StoreModel.v`) refines a list of independent agents, by induction on the program; the invariant is
  that no two variables point to one envelope.  C86 (R): the rotation matrix determines a unit quaternion up to its sign.
* C87 (P): induction on the sequence of setter calls; every attribute separately.  The refutations evaluate one moved ball.
* C88 (P): the text is read back line by line (`PrintProofs.v`); induction on the nesting.  Definedness by induction on the rank of the
  heap.  How a number is written is a parameter `show`; the theorems ask that it uses no blank, comma, parenthesis or line end.
* C89 (P): induction on the sequence of calls.
* C90 (P, B): the arithmetic with another arc cosine (`with_acos`) is compared function by function; everything else in it is the same.
* C91, C92 (R, P): an invariant of `simulate` (the loop with history and pictures) over the rounds; the generator and the noise are arbitrary
  functions.
* C93 (P): the hulls of published aggregates have all their columns, references follow, so everything reached is drawable; drawing
  does not depend on the fuel once it returns.
* C94, C95 (R): two scenes are compared function by function: matrices and weights are the same, velocities are proportional, the fold
  over angles is homogeneous.  `SpecUnits.v` says what "the same scene in another unit" is.
* C96 (R): every frame is mirrored up to the signs of its second and third column; these signs cancel in `E D E^-1`, in `B B^T` and in the
  angles.  Symmetric scenes: together with C53 (order).
* C97-C100 (P, R, X, B): `DiagModel` repeats the functions that can print in a writer over `res`, line by line; erasing the lines gives the
  original functions (structural induction).  A call is taken apart into the lines of the visibility test, of the loop, of the repulsion and of
  the guard (`modulate_inv`); each part can print only its own texts, so that membership of a text tells which branch was taken.  NaN: the first
  column of the frame is the normalised relative velocity, so a NaN coordinate of the desired velocity reaches the same coordinate of the result.
* C101 (R): `FlowReal.barrier` - a differentiable function which starts at 1 or more and whose derivative is at least -K wherever it is in (rho, 1]
  never falls below 1 - K t (last moment above, mean value theorem).  It is applied to the distance value of the agent from each obstacle:
  its derivative is the product of the gradient and the velocity relative to the material point of the obstacle (`level_moves`, which
  differentiates the coordinates in the moving and turning frame), and C49, now stated inside as well as on the obstacle, says that it is 0.
* C102 (R): along paths.  Normals, distances, eigenvalues and the modulated velocities are composed of continuous functions; the weights are
  continuous where at most one obstacle is critical (its weight tends to 1 as the distance tends to the critical distance: squeeze); the signed
  angle is `2 atan (p / (1 + c))`, and angles that are not continuous belong to weights or speeds that vanish.  The linearised band costs 1e-8.
* C103 (P): objects reachable from obstacle_map and obstacle_list through primitives.  After update: the components of C05 and the frame of C07
  (primitives of old objects are unchanged).  Cycles: set_reference_position, which add_primitive calls, runs down every path, so it never ends on a cycle.

- C104–C106 (drawings and Python). `PyModel.v` models the functions of `matplotlibcpp.hpp` that the library calls as state transformers over a heap of Python objects with
  the number of references the C++ side holds; what Python answers is a parameter (`world`): which modules and functions exist, and for each call, given all earlier calls and the
  error indicator, whether it returns. `SpecPy.v` says independently which Python call a command means (`meant`), how a list of commands is carried out (`carried`), when a text can be shown
  (UTF-8 defined from code points), and what the library draws (`drawing`: everything `draw`, `plot_obstacles`, `plot_agent`, ... can return). Each command is executed symbolically once on an
  arbitrary heap (`PyProofs.v`), lists by induction; starting the interpreter is handled by showing that all drawings begin with `plot` or `figure`, which start it (`PyStart.v`).
- C106 after update(), C107 (example programs in Python). `PyMains.v` shows that aggregation keeps the hull names showable (invariant over `agg_pair`), so everything published by
  update() can be drawn; and that the command list of every example program starts with a call that starts Python and consists of well-posed commands (induction over the control
  loop). Both then follow from the session lemmas of C104–C106. C92 (files): the names saved by a loop are the names of its rounds, by induction over the loop for every number type.
- C108: `SortModel.v` repeats the functions that call `std::sort` with the routine as a parameter (the model is recovered by `reflexivity`). A simulation through `agg_pair`
  (`SortProofs.v`) relates the two runs by "equal up to outlines" or by equality; names sort uniquely when they differ; points on one ray at one distance are equal (`SortReal.v`).
- C109 (B): rotations, sums and products carry an absolute error in units of 2^-53 times the size of the result (`close` in `FloatDist.v`); quotients by half-lengths
  and squares turn it into 2^-42 times the ratio of the largest coordinate to the smallest half-length (`ratio_real`, `square_real`), and both ways the code squares (pow, x*x/(l*l)) stay
  within that (`pow_quot`, `sq_quot`). `SpecDist.v` assumes of pow only that pow(x, 2) is the square up to one unit in the last place.
- C110 (B): each coordinate of the gradient is within 2^-41 S of its exact value after scaling by lo^2/2 (`normal_coordinate` in `FloatNormal.v`); directions of vectors that differ by e in each coordinate differ by at most 3 e / length (`direction_error`); normalising costs 11 half-units (`normalized_near` in `FloatDirs.v`).
- C111 (B): powers of two bound every intermediate result (`FloatBound.v`); the computed normal and reference direction enclose an angle whose cosine is at least 1/1200 (`directions_real`), so the determinant of the basis is at least 2^-60 (`det_lower`) and its inverse at most 2^67; the sums over the obstacles use that k 2^n is a double for k up to 2^31 (`bdk_add` in `FloatCombine.v`). With repulsion or restriction to the surroundings (`FloatFlags.v`) the level value of an agent outside the smallest half-length is bounded below, so the repulsion, too, has a power of two as bound.
- C112 (B): the computed length differs from the exact one by at most 8 units of 2^-53 (`vnorm_near`), so the comparison with the limit errs only next to it; a step costs two roundings (`step_near`), and induction over the steps keeps both the accumulated error and the size of the positions (`steps_inv`, `FloatStep.v`); the round of the loop combines this with C111 (`FloatLoop.v`), and `rounds_steps` (P) shows that the loops make nothing but such steps. 
- C113 (B): a round either stops the agent or makes one step with a limited velocity (`wall_step` in `FloatWall.v`, from C111 and C112); induction over the rounds keeps the list of steps, whose sum `steps_inv` and `exact_travel` bound, so the position stays within the range for which the next round is covered.
- C114 (B): the obstacle stays usual when its linear velocity is replaced (`usual_lin` in `FloatMoving.v`), so a round is a step with a limited velocity (`moving_step`), and the argument of C113 applies (`travel_bound`); the heap after a round differs from the one before in one cell only. One approaching step contracts the distance to the target and adds a rounding error of at most 2^-48 times the box (`approach_coordinate` in `FloatApproach.v`), by induction n steps add n of them (`approach_double`); hence `moving_approach`, and for the constants of the program `moving_program_double` in `FloatFree.v` (w1 is registered there but never listed, so no hypothesis on obstacles is left).
- C115 (B): without obstacles the modulation changes nothing, so a round is one step of the same approach (`free_rounds`, for every number type), and `approach_double` applies (`free_double` in `FloatFree.v`).
- C116 (B): the guard's velocity is its desired one, limited (`limit_double`); the platform's is modulated (`modulated_flags`) and limited; a step with noise is two additions and a product (`noisy_coordinate` in `FloatGuard.v`), which gives `guard_double`.

## 4. Findings
Each item is backed by the named theorem.

Environment and aggregates
* C09: after separating, obstacles keep the reference position of their old aggregate (`C09_..._refuted`).
* C11: two published aggregates can have the same name (`_` is also allowed in names).
* C70: an aggregate of an empty list has the position (NaN, NaN, NaN).
* C37, C41, C59: hull radii: columns that are smoothed with stale neighbours violate the minimum radius; `update_hull` is not
  idempotent and depends on its own history; the smoothed outside hull leaves out parts of the primitives.
* C38, C60: hull look-up indexes past the last column for points exactly behind (negative x axis): undefined behaviour, also
  reached by `modulate_velocity`.
* Obstacles created by name only have an indeterminate reference position (C60, C66).

Agent and poses
* C13: the envelope is stale after construction and after `set_safety_margin`.  C14: every use of the envelope of a copied agent
  dereferences a null pointer.
* C17: quaternions longer than 1.0001 are stored unnormalised.  C19: q and -q give different stored poses when w = 0.

Geometry
* C27: lengths up to 1e-4 count as 1, so a larger margin can make an obstacle look farther.  C29: with curvature factors other than 1
  the normal is not normal to the level set.
* C30: `point_is_inside` ignores the height.  C32: intersection detection is incomplete and not symmetric.
* C33: lines parallel to the local y axis divide by zero (NaN/Inf), which makes dents in hulls.  C36: `area` is not the surface area.

Modulation
* C46: the early return lets NaN through.  C49, C50: for deflections below the angle threshold the agent can enter a ball by one step.
* C51, C63: in space the agent enters static obstacles: the frame used to recompose the velocity is not orthonormal, so that every
  approach of a ball that is neither horizontal nor central enters it.  C64: vertical motion is never deflected.
* C52: between two balls the agent can enter one of them.  C54: with moving obstacles in space the result depends on the world frame.
* C74: agents enter aggregates even with arbitrarily short steps (new hulls are smaller than their primitives).
* C75: the agent's margin is ignored for aggregates and hulls.
* C76: the motion of grouped obstacles is ignored.
* C35: the repulsion of an aggregate pulls an agent which has entered one of its primitives to the reference position.
* C94: with repulsion the result is not proportional to the velocities.  C95: with curvature factors that differ between the axes normal
  directions depend on the unit of length.  C96: with curvature factor 3/2 the normal direction points inwards on one side.  C99: "Agent in obstacle,
  repulsion activated" is printed outside (distance value below 1.1) and is not printed where repulsions cancel.
* C72, C73: an agent straight behind a disc stops at its back; an agent touching the front of the disc never leaves for the target.
* C103: a removed obstacle stays published, and with aggregation can be looked up by name, until the next update.
* C102: the velocity jumps when a second obstacle becomes critical (its weight goes from 0 to 1/2 at once), and where repulsion sets in.
* C62: along elongated ellipsoids the speed is unbounded.  C65: planar modulation in the plane of the obstacle never leads around it,
  and slows down the retreat, too.

Programs and tests in the repository
* C77, C78: no example program calls `update()`, so none of them avoids anything: the agents go straight through the obstacles, and in
  testMovingObstacle the obstacle runs over the agent.  testSingleConfiguration and test3D read an uninitialised velocity.
* C79: the unit test ModulateVelocity does not call `update()` either and fails; with `update()` the model gives exactly the expected value.
  The unit test GetList prints an uninitialised reference position.

Drawing
* C66: the dashed line does not show the margin.  C67: the side view of an unrotated ellipsoid is a vertical segment.
* C69: agents and aggregates are drawn from above in the side view.

Double precision
* C80: weights do not sum to 1 exactly (three obstacles in contact), and underflow to 0/0 = NaN for distances of 2^600.
* C82: normalised orientations are not exactly of length 1.  C83: rand_float can exceed its upper bound, linspace between subnormal
  bounds overshoots.
* C85: after `x = y` two agents share one envelope; moving one away blinds the other to obstacles (`C85_agents_are_values_refuted`).
* C87: `set_position` leaves the reference position behind; an obstacle built at the origin and moved over an agent pulls the agent in
  (`C87_moved_obstacles_repel_refuted`).
* C88: obstacles created by name only cannot be printed: `print` reads the reference position, which is not initialised.
* C86: header and definition of the seven-number Pose constructor order the quaternion differently (`C86_..._refuted`).
* C91, C92: no example program calls `update()`, so all of them ignore every obstacle: straight lines, through obstacles
  (`C91_the_agent_avoids_the_obstacles_refuted`, `C92_testWall_avoids_the_walls_refuted`...), and empty pictures.  testSingleConfiguration and test3D are undefined.
  The seed in the name of a picture does not determine its scene: it also depends on the order in which the compiler evaluates the arguments
  of `Vector3d(rand_float(..), rand_float(..), 0)` (`C91_the_seed_determines_the_scene_refuted`).
- C104: `plot` reports failure only by its result, which nobody looks at: if every plot fails, `plot_configuration` still returns normally after saving an empty picture, with
  Python's error indicator set (`C104_failures_are_reported_refuted`). Names are passed with `c_str()`, so anything after a NUL is not shown.
- C105: `if(!res) throw` comes before `Py_DECREF(args)`: every failing `text`, `xlim`, `ylim`, `subplot`, `save` leaks its arguments.
- C106: `PyString_FromString` returns NULL for a name that is not UTF-8, the NULL goes into the argument tuple unchecked and the call crashes. The result of `import_numpy()` is ignored, so
  without numpy the first plot goes through a table that was never loaded. `text`, `xlim`, `ylim`, `subplot` and `save` use the C API before the interpreter exists when they are the first call.
  (`subplot` passes its numbers as floats, which recent versions of matplotlib reject: 3D plots then end with "Call to subplot() failed.".)
- C108: a hull keeps the polar angle (height) of the first intersection found, and which one is first among equally distant ones is unspecified: for two unit balls at heights 1 and -1
  the outline depends on the standard library (`C108_at_different_heights_refuted`).
- C109: a point exactly on the boundary of a circle can be reported as outside in double precision (radius 5a, point (3a, 4a), a = 19069613/2^25).
- C112: the speed limit of the programs sets velocities beyond about 10^154 to zero, because their squared length overflows (`C112_speed_limit_refuted`); C111 bounds the velocities of usual scenes only by 2^382.

## 5. Not modelled
What matplotlib draws when it is called, the functions of `matplotlibcpp.hpp` that the library never calls, `Py_Finalize` at exit, how a stream writes a number (a parameter of C88), what is printed on stderr before an exception or undefined behaviour, deallocation (beyond reachability, C103),
the order in which arguments are evaluated where it makes no difference (only calls of `rand()` have effects that others see: there every order is allowed, C91), rounding of doubles (beyond P- and B-theorems), integer overflow of `int num`/`unsigned` sizes above 2^31.

## 6. Trusted base
Coq 8.16.1 kernel; the reading of the C++ code into the model (1); library assumptions above; axioms printed by
`Print Assumptions`: for P theorems none, for R/X/B theorems the standard library's real-number axioms
(`ClassicalDedekindReals.sig_forall_dec`, `sig_not_dec`, `functional_extensionality_dep`) and possibly `Classical_Prop.classic` through stdlib lemmas.
