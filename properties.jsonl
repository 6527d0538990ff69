{"id": "C01", "title": "Timer visits every time point of the interval exactly once", "statement": "Iterating a timer whose interval length is a whole number N of (stride times) steps produces exactly N values (N+1 with include_start), strictly increasing, evenly spaced by stride*step, starting one step after the interval start (at the start with include_start) and ending at the interval end.", "quantifier": "every interval, step, stride with (end-start) = N*stride*step, every N >= 1, both include_start settings", "why_tests_cant": "The number of points is unbounded and the claim is about all intervals and steps; a test only samples a few.", "anchors": ["dream/time.py: Timer.start, Timer.to_array, Timer.__call__"]}
{"id": "C02", "title": "Time labels returned by the timer identify time points", "statement": "The value the timer hands out for a time point is rounded to the number of decimals of the step. If the interval start has no more decimals than the step, every label equals the exact time and two different time points never get the same label (so saved files do not overwrite each other). The array of a timer and the loop over it then consist of exactly these times. Without that restriction on the start the claim is false.", "quantifier": "every decimal step and start (any number of digits), every pair of indices", "why_tests_cant": "Label collision depends on the combination of start, step and digit count; only a universal argument excludes it.", "anchors": ["dream/time.py: Timer.start, Timer.to_array, Timer.__call__, Timer._set_digit, Timer.step"]}
{"id": "C03", "title": "Timer interval is always valid", "statement": "After any sequence of assignments to the interval, accepted or rejected, the stored interval satisfies 0 <= start < end, a rejected assignment raises and leaves the previous interval in force.", "quantifier": "every finite history of interval assignments with arbitrary values", "why_tests_cant": "Histories are unbounded.", "anchors": ["dream/time.py: Timer.interval", "dream/config.py: configuration.__set__"]}
{"id": "C04", "title": "Stored time levels are the last computed solutions", "statement": "After setting initial conditions and running k time steps, the level 'n' (and 'n-1' for BDF2) handed to the scheme at step k+1 is the solution after step k (and k-1), with all levels before the first step equal to the initial state.", "quantifier": "every number of steps, every sequence of step solutions, both schemes, any number of variables", "why_tests_cant": "Requires induction over the number of steps.", "anchors": ["dream/time.py: TimeSchemes.set_initial_conditions, TimeSchemes.update_gridfunctions, ImplicitEuler.time_levels, BDF2.time_levels, TransientConfig.start_solution_routine"]}
{"id": "C05", "title": "Time discretisations are consistent", "statement": "The discrete time derivative of implicit Euler is exact for functions linear in time and that of BDF2 for functions quadratic in time at the new time level; the (current level, time step) pairs returned by the scheme, normalised or not, reproduce the same derivative. BDF2 supposes equal steps: the first step of a run and the first one after a change of the step size are not consistent.", "quantifier": "every polynomial of the stated degree, every time and nonzero step, all level values", "why_tests_cant": "Universal over functions and steps.", "anchors": ["dream/time.py: ImplicitEuler.get_time_derivative, BDF2.get_time_derivative, get_current_level, get_time_step"]}
{"id": "C06", "title": "Pseudo time step grows monotonically up to its bound", "statement": "During pseudo time stepping with an increment factor >= 1 the time step never decreases, never exceeds max(initial step, max_time_step), changes only at positive iteration numbers divisible by increment_at, and with a factor >= 2 reaches max_time_step after finitely many iterations. Over several solves with one configuration the increments add up: a solve starts with the step the previous one ended with, not with the one that was set.", "quantifier": "every iteration sequence of any length, every positive initial step, bound, factor and increment_at > 0", "why_tests_cant": "Quantifies over unbounded iteration histories.", "anchors": ["dream/time.py: PseudoTimeSteppingConfig.solver_iteration_update, PseudoTimeSteppingConfig.start_solution_routine", "dream/solver.py: SolverConfiguration.solve"]}
{"id": "C07", "title": "Nonlinear solve stops and never applies a NaN update", "statement": "A nonlinear solve performs at most max_iterations update steps, stops right after the first step whose error is below the criterion or not a number, applies every non-NaN correction exactly once and never applies a NaN correction; the state it leaves is the initial guess minus the damped sum of the applied corrections.", "quantifier": "every solver behaviour (arbitrary sequence of corrections and errors), every max_iterations, every damping factor", "why_tests_cant": "The linear solver is arbitrary; the space of error sequences is infinite.", "anchors": ["dream/solver.py: NonlinearSolver.solve, set_iteration_error, reset_status, NewtonsMethod.update_solution"]}
{"id": "C08", "title": "Transient run: one solve, one shift, one yield, one save per time point", "statement": "A completed transient run performs, for each timer value in order, a nonlinear solve, a level shift, a yield of that value and a save call with that value and its zero-based counter, framed by exactly one pre save and one post save with the last value and counter, and then closes the output streams. A run whose timer has no value does not complete normally.", "quantifier": "every list of timer values", "why_tests_cant": "Universal over run lengths and the event order of a generator.", "anchors": ["dream/time.py: TransientConfig.start_solution_routine", "dream/io.py: IOConfiguration.__enter__, __exit__"]}
{"id": "C09", "title": "VTK output schedule", "statement": "With rate r a completed transient run writes a VTK snapshot for the pre routine, for every time point whose zero-based counter is divisible by r, and for the last time point, each exactly once and in time order.", "quantifier": "every number of time points n >= 1, every rate >= 1", "why_tests_cant": "Universal over n and r, including the interaction of the last-step rule with divisibility.", "anchors": ["dream/io.py: VTKStream.save_pre_time_routine, save_in_time_routine, save_post_time_routine"]}
{"id": "C10", "title": "Grid function output schedule", "statement": "With rate r and time_level_rate q a completed transient run writes the state file of the pre routine, of every time point with counter divisible by r and of the last time point; time level files are written for the counters divisible by q (and together with an additional last state). The final time levels are written whenever the last counter is divisible by q or not divisible by r; otherwise they are missing, so a restart from the end is not always possible.", "quantifier": "every number of time points, every pair of rates", "why_tests_cant": "Depends on arithmetic of two rates and an unbounded counter.", "anchors": ["dream/io.py: GridfunctionStream.save_in_time_routine, save_pre_time_routine, save_post_time_routine"]}
{"id": "C11", "title": "Sensor output schedule", "statement": "Each sensor gets one CSV row in the pre routine, one per time point whose counter is divisible by that sensor's own rate, and one for the last time point; rows are in time order and never duplicated.", "quantifier": "every set of sensors with individual rates, every number of time points", "why_tests_cant": "Universal over rates and run lengths.", "anchors": ["dream/io.py: SensorStream.save_pre_time_routine, save_in_time_routine, save_post_time_routine"]}
{"id": "C12", "title": "Loading a saved transient run replays it", "statement": "After a transient run saved with rate 1, load_transient_routine visits every time point of the same timer and restores at each the state saved there. For rates greater than 1 the loader asks for files the run did not write.", "quantifier": "every run (states, times with distinct labels), every rate", "why_tests_cant": "Universal over runs; the failing rates need the exact index sets.", "anchors": ["dream/io.py: GridfunctionStream.load_transient_routine, load_routine, save_in_time_routine", "dream/time.py: Timer.start"]}
{"id": "C13", "title": "Time level save and load round trip", "statement": "Loading the time levels of a label at which they were saved restores every level of every variable to the saved value, whatever has been computed or saved under other labels in between.", "quantifier": "every store content, every set of variables and level names, every label", "why_tests_cant": "Universal over histories and name collisions.", "anchors": ["dream/io.py: GridfunctionStream.load_time_levels, save_in_time_routine, save_gridfunction, load_gridfunction"]}
{"id": "C14", "title": "Output streams start without error in every activation pattern", "statement": "Entering a solve with activated streams that are completely set up, neither the mesh nor the settings stream among them, performs the pre-routine of every activated file stream, each once and in the order of activation. With the mesh or the settings stream active every solve raises TypeError before anything is saved, and a VTK stream or sensor without fields raises ValueError.", "quantifier": "every subset of activated streams", "why_tests_cant": "Combination of all subsets with all call sites.", "anchors": ["dream/io.py: IOConfiguration.save_pre_time_routine, MeshStream.save_pre_time_routine, SettingsStream.save_pre_time_routine"]}
{"id": "C15", "title": "Opened stream files are closed", "statement": "Every file opened for sensors on entering the output context is closed when the context is left, normally or by an exception, and CSV rows written for a sensor go to that sensor's file - provided sensor names are distinct across kinds; otherwise one file stays open and rows are interleaved.", "quantifier": "every set of sensors, every history of events, every exception point inside the context", "why_tests_cant": "Universal over crash points and sensor sets.", "anchors": ["dream/io.py: SensorStream.open_csv_writers, close, IOConfiguration.open, close, __exit__"]}
{"id": "C16", "title": "Sensor CSV header is aligned with the rows", "statement": "For every sensor the header rows and each data row have the same number of cells and cell k of a row is the measurement of the region/point, field and component named in cell k of the header.", "quantifier": "every list of regions or points, every list of fields of any dimension", "why_tests_cant": "Universal over shapes; misalignment only shows for particular shape combinations.", "anchors": ["dream/io.py: Sensor.get_header, get_components_name, RegionSensor.get_header, PointSensor.get_header, SensorStream.get_header, SensorStream.measure"]}
{"id": "C17", "title": "Changing an output folder relocates everything below it", "statement": "Assigning a relative path to a folder setting stores root/path; every other stored folder below the old location is moved to the same relative place below the new one and all others are unchanged. Assigning an absolute path moves only that folder.", "quantifier": "every folder configuration and every path", "why_tests_cant": "Universal over path shapes; includes termination of the rebase loop.", "anchors": ["dream/io.py: path.__set__, IOFolders"]}
{"id": "C18", "title": "Stream activation is idempotent and reversible", "statement": "After any history of activations/deactivations a stream is active exactly if the last accepted assignment was True (or its own name); non-boolean assignments raise and change nothing; reading an inactive stream yields a dummy and never fails.", "quantifier": "every history of assignments", "why_tests_cant": "Unbounded histories.", "anchors": ["dream/io.py: stream.__set__, stream.__get__"]}
{"id": "C19", "title": "At most one log handler of each kind per log stream", "statement": "After any history of level/to_terminal/to_file assignments a log stream has registered at most one terminal and one file handler with the logger, a terminal (file) handler is registered exactly if the last assignment was true, and deleting the stream removes all of them, leaving other handlers untouched.", "quantifier": "every history of assignments on any number of log streams", "why_tests_cant": "Unbounded histories.", "anchors": ["dream/io.py: LogStream.to_terminal, to_file, __del__"]}
{"id": "C20", "title": "A rejected configuration value leaves the configuration unchanged", "statement": "Assigning a value a setter rejects raises and leaves every stored option of the configuration unchanged; an accepted value changes only the assigned option, and reading it back yields the validated value. After any history of statements, whichever of them raised, every option holds a value its setter has returned, so every validated option of the solver, timer, nonlinear solver and streams is valid. (A dictionary for a sub-configuration is applied entry by entry: entries before the rejected one stay.)", "quantifier": "every configuration, option and value, every history", "why_tests_cant": "Universal over setters and histories.", "anchors": ["dream/config.py: configuration.__set__, configuration.__get__"]}
{"id": "C21", "title": "Parameters keep their identity", "statement": "Symbolic forms that captured a parameter object see every later assignment: assigning to a parameter option changes the value of the same object and never replaces it; only a reset creates a new object.", "quantifier": "every history of assignments", "why_tests_cant": "Aliasing over unbounded histories.", "anchors": ["dream/config.py: parameter.__set__, parameter.reset"]}
{"id": "C22", "title": "Sub-configurations share root and mesh with their parent", "statement": "After any history of assignments of instances, keywords and dictionaries, every configuration reachable from a root refers to the root's solver configuration and mesh, provided no configuration instance is used with two roots at the same time; passing root and mesh on always ends. (An instance stored in a second solver follows the second one, also where the first one uses it.)", "quantifier": "every configuration tree of any depth, every history", "why_tests_cant": "Structural induction over trees and histories.", "anchors": ["dream/config.py: unique.__set__, unique.update_subconfigurations_recursively, interface.__set__"]}
{"id": "C23", "title": "Selecting an option by keyword", "statement": "Assigning a registered keyword makes the option an instance of the registered class, keeps the current instance (and its settings) if it already is one, and otherwise creates a fresh instance with default settings; an unregistered keyword raises and changes nothing.", "quantifier": "every registry, class hierarchy and current instance", "why_tests_cant": "Universal over registries.", "anchors": ["dream/config.py: interface.__set__, InterfaceTree.__getitem__"]}
{"id": "C24", "title": "Keyword registry is unambiguous", "statement": "Whatever classes are defined in whatever order, each registered keyword refers to exactly one class, registering a keyword twice (up to case) raises, and earlier registrations are never overwritten.", "quantifier": "every sequence of class definitions with arbitrary names and aliases", "why_tests_cant": "Unbounded sequences of definitions.", "anchors": ["dream/config.py: InterfaceConfiguration.__init_subclass__, InterfaceTree"]}
{"id": "C25", "title": "Flattened settings restore a configuration", "statement": "For a configuration tree of plain options, keyword interfaces and sub-configurations, updating a default configuration with the flattened tree of another reproduces that tree. (False as soon as an activated stream whose keyword differs from its attribute name is part of the tree, which is the default.)", "quantifier": "every configuration tree of any shape and depth with any option values", "why_tests_cant": "Universal over trees and values.", "anchors": ["dream/config.py: UniqueConfiguration.to_tree, UniqueConfiguration.update", "dream/io.py: stream.__set__, LogStream.name"]}
{"id": "C26", "title": "Nested updates do not depend on how they are written", "statement": "Updating with keyword arguments stands for the assignments of the keys without dot, in order, followed by one update of every sub-configuration with dotted keys, as long as no dotted key precedes its own parent keyword. So dotted keys below one name and the corresponding nested dictionary are equivalent, the order of keys matters only among keys without dot and below one name, and keys whose first name is not stored have no effect. A dotted key before its own parent keyword raises TypeError. (As streams that are not active are not stored, activating one by update is silently ignored.)", "quantifier": "every configuration tree and every update dictionary", "why_tests_cant": "Universal over key orders.", "anchors": ["dream/config.py: UniqueConfiguration.update"]}
{"id": "C27", "title": "Field containers are keyed canonically", "statement": "Setting a field by its symbol or by its quantity name addresses the same entry; reading the attribute or the item by name returns the last value written by either spelling and not deleted since; setting an attribute to None is a no-op; other entries are unaffected; keys are always quantity names, without duplicates. The symbols of the flow fields follow one naming rule: rho_X is the quantity per volume, X the specific one, grad_X the gradient, and reference values use the same symbols for the same quantities. (Items can not be read or deleted by symbol, and a subclass that redeclares a symbol separates both spellings.)", "quantifier": "every history of writes, updates and deletions with any keys, every proper symbol table", "why_tests_cant": "Unbounded histories.", "anchors": ["dream/config.py: ngsdict.__setitem__, quantity.__get__, quantity.__set__", "dream/compressible/config.py: flowfields"]}
{"id": "C28", "title": "Field selection returns exactly the requested fields", "statement": "get_fields returns exactly the fields it can provide for which one of the spellings (symbol or quantity name) is selected or is an unmentioned default (rho, u, p, T), each with the provided value; a selected name is reported as not predefined exactly if it cannot be provided. (Deselecting a default by its quantity name has no effect, and deselecting by symbol is reported as not predefined.)", "quantifier": "every selection dictionary", "why_tests_cant": "Universal over selections (subset lattice of all quantities).", "anchors": ["dream/solver.py: SolverConfiguration.get_fields", "dream/compressible/formulations/conservative.py: ConservativeFiniteElementMethod.get_fields"]}
{"id": "C29", "title": "Conditions are attached to exactly the named regions", "statement": "Assigning a condition to a pattern appends it to the condition list of every existing region named in the pattern (in pattern order, once per mention), leaves all other regions and earlier conditions unchanged, ignores unknown names, and raises without any change for invalid conditions; the set of regions is invariant.", "quantifier": "every region set, every history of assignments with arbitrary patterns", "why_tests_cant": "Unbounded histories and patterns.", "anchors": ["dream/mesh.py: Conditions.__setitem__, get_regions_from_pattern, get_pattern_from_sequence"]}
{"id": "C30", "title": "Condition queries reflect the assignments", "statement": "has_condition, get_region, get_periodic_boundaries and get_domain_boundaries return exactly the regions carrying a condition of the queried kind (including derived kinds); domain boundaries are the regions with at least one condition none of which is periodic, so every region with conditions is either a periodic or a domain boundary. The pattern form names the same regions, if there are any.", "quantifier": "every history of assignments, every kind", "why_tests_cant": "Unbounded histories.", "anchors": ["dream/mesh.py: Conditions.get_region, has_condition, BoundaryConditions.get_domain_boundaries, BoundaryConditions.get_periodic_boundaries, get_pattern_from_sequence"]}
{"id": "C31", "title": "Pattern view of the conditions is complete", "statement": "to_pattern returns every assigned condition of the requested kind together with all regions it is assigned to - provided no two conditions of that kind have the same region list; otherwise one of them is lost.", "quantifier": "every history of assignments, every iteration order of the condition set", "why_tests_cant": "Universal over histories and hash orders.", "anchors": ["dream/mesh.py: Conditions.to_pattern"]}
{"id": "C32", "title": "Periodic meshes need periodic conditions", "statement": "Initialising a solver on a mesh with periodic identifications raises exactly if no boundary carries a periodic condition.", "quantifier": "every mesh periodicity flag and boundary condition history", "why_tests_cant": "Unbounded histories.", "anchors": ["dream/solver.py: SolverConfiguration.set_boundary_conditions", "dream/mesh.py: is_mesh_periodic"]}
{"id": "C33", "title": "Polynomial sponge orders are always admissible", "statement": "After any history of order assignments, accepted or rejected, a polynomial sponge layer satisfies 0 <= low order <= high order, and the generated order pairs form a descending chain from highest to lowest in which each low order is the next high order. An assignment changes at most the order it names, a deletion exactly that one; after a reset both orders are zero.", "quantifier": "every history of integer assignments; every highest > lowest >= 0, step > 0", "why_tests_cant": "Unbounded histories.", "anchors": ["dream/mesh.py: PSpongeLayer.high_order, low_order, get_pairs_of_polynomial_orders"]}
{"id": "C34", "title": "Facet order reduction keeps exactly the low order unknowns", "statement": "Reducing the facet space in polynomial sponge layers keeps all unknowns outside the layers, keeps inside a layer exactly the unknowns whose local polynomial index is at most the layer's high order, keeps an unknown shared by layers if one of them keeps it, and raises if the layer order exceeds the space order.", "quantifier": "every dof numbering with global order p, every assignment of facets to layers", "why_tests_cant": "Universal over meshes.", "anchors": ["dream/mesh.py: DomainConditions.reduce_psponge_layers_order_facetwise"]}
{"id": "C35", "title": "Grid deformation reflects the mappings set", "statement": "The deformation function of a grid deformation is, component by component up to the dimension, the deformation of the mapping last assigned to that coordinate. (Fails when a mapping is reset to None; requesting the overall deformation without explicit layers fails always.)", "quantifier": "every history of mapping assignments", "why_tests_cant": "Unbounded histories.", "anchors": ["dream/mesh.py: GridDeformation.set_function, check_mapping, DomainConditions.get_grid_deformation_function"]}
{"id": "C36", "title": "Structured ring mesh is a valid conforming triangulation", "statement": "For admissible parameters the ring mesh has n_polar*(n_radial+1) points, 2*n_polar*n_radial triangles with distinct in-range vertices and uniform orientation, every inner edge is shared by exactly two triangles in opposite directions, each edge on the inner/outer circle belongs to exactly one triangle and carries exactly one boundary element, the inner ones labelled cylinder and exactly half of the outer ones labelled left.", "quantifier": "every n_polar divisible by 4, every even n_radial with 2 <= n_radial <= n_polar/2", "why_tests_cant": "Combinatorial claim for all sizes.", "anchors": ["dream/mesh.py: get_cylinder_omesh"]}
{"id": "C37", "title": "Buffer coordinates are clamped", "statement": "A buffer coordinate equals the physical coordinate inside the layer, the layer start before it and the layer end after it (also for layers running in negative direction), its normalised value lies in [0,1] and is monotone.", "quantifier": "every coordinate and every layer with different start and end", "why_tests_cant": "Continuum of inputs.", "anchors": ["dream/mesh.py: BufferCoord", "dream/bla.py: interval, min, max"]}
{"id": "C38", "title": "Sponge profiles are bounded and monotone", "statement": "Polynomial and penta sponge functions vanish at the layer start, equal the weight at the end, stay between 0 and the weight and increase monotonically; the penta profile has vanishing first and second derivatives at both ends. The constant function is the largest of them and the polynomial of order zero.", "quantifier": "every weight >= 0, order >= 1 and coordinate", "why_tests_cant": "Continuum of inputs.", "anchors": ["dream/mesh.py: SpongeFunction.polynomial, SpongeFunction.penta"]}
{"id": "C39", "title": "Grid stretching maps scale the layer", "statement": "A linear/exponential/tangential mapping with scale s > 1 leaves the layer start fixed, is strictly monotone, and stretches the layer length by s - exactly for linear, and for the other two up to an error bounded by the last fixpoint increment, which tends to zero with the number of iterations; scales <= 1 raise ValueError and coordinates that are no layer TypeError. Points before the layer are not moved and points behind it are moved by the growth of the layer. The cartesian components of a radial mapping move every point off the axes through the centre radially by the radial deformation; on the axes they divide by zero. The mapping none moves no point.", "quantifier": "every layer, every scale > 1, every number of fixpoint iterations", "why_tests_cant": "Needs convergence of a nonlinear iteration for all parameters.", "anchors": ["dream/mesh.py: GridMapping.linear, exponential, tangential, length", "dream/bla.py: fixpoint_iteration"]}
{"id": "C40", "title": "Pointwise algebra helpers", "statement": "abs, max, min and interval computed through the positivity switch equal the mathematical functions for all reals including ties; diagonal places exactly the given entries; the symmetric/skew-symmetric builders produce symmetric/skew-symmetric matrices containing each component; vectors of unsupported length raise.", "quantifier": "all real arguments, vectors of any length", "why_tests_cant": "Continuum of inputs, arbitrary dimensions.", "anchors": ["dream/bla.py: abs, max, min, interval, diagonal, trace, unit_vector, symmetric_matrix_from_vector, skewsymmetric_matrix_from_vector"]}
{"id": "C41", "title": "Equation of state is path independent", "statement": "For a thermodynamically consistent set of fields, any subset of fields from which density, pressure, temperature, velocity, momentum, one of the energies, enthalpy, or speed of sound can be determined yields the value of the state, whatever branch is taken; an answer is given exactly for the listed combinations of fields and ValueError is raised otherwise. (False for the speed of sound computed from the specific inner energy, which is too small by the factor gamma; the specific enthalpy of density, energy and pressure raises TypeError unless the specific energy is given too.)", "quantifier": "every positive state, heat capacity ratio > 1, every subset of given fields", "why_tests_cant": "Exponentially many subsets times a continuum of states.", "anchors": ["dream/compressible/eos.py: IdealGas.density, pressure, temperature, inner_energy, specific_inner_energy, speed_of_sound", "dream/compressible/solver.py: velocity, momentum, energy, enthalpy ..."]}
{"id": "C42", "title": "Field gradients are derivatives of the fields", "statement": "The gradient formulas of the equation of state return the exact spatial derivative of the corresponding quantity along any differentiable consistent state.", "quantifier": "every differentiable state curve, every branch", "why_tests_cant": "Analytic statement over function spaces.", "anchors": ["dream/compressible/eos.py: *_gradient", "dream/compressible/solver.py: *_gradient"]}
{"id": "C43", "title": "Characteristic transformations are mutually inverse", "statement": "In two dimensions the conservative-primitive, primitive-characteristic and conservative-characteristic transformation matrices are inverse to each other for any state and unit direction, the combined ones are the products of the elementary ones, and the conservative-from-primitive matrix is the derivative of the conservative variables with respect to the primitive ones along any curve of states. Missing fields raise ValueError; in three dimensions NotImplementedError is raised, except by the primitive-characteristic matrices, which hand the exception object to the caller, whose product then fails with TypeError.", "quantifier": "every state with nonzero density and sound speed, every unit vector, heat capacity ratio other than 1, every smooth curve of states, every set of given fields", "why_tests_cant": "Continuum of inputs.", "anchors": ["dream/compressible/eos.py: conservative_from_primitive, primitive_from_conservative, characteristic_from_primitive, primitive_from_characteristic, conservative_from_characteristic, characteristic_from_conservative"]}
{"id": "C44", "title": "Flux Jacobians are diagonalised by the characteristic matrices", "statement": "For every state and unit direction n, and every option (full, absolute, incoming, outgoing), the columns of the characteristic matrices are eigenvectors of the Jacobian the solver returns, with the corresponding part of the speeds (u_n - c, u_n, u_n, u_n + c) as eigenvalues, in conservative and in primitive variables; the full Jacobian equals A nx + B ny with the Jacobians A, B in the coordinate directions, and the conservative A, B are the transformed primitive ones. Unknown options and missing fields raise ValueError.", "quantifier": "every state and unit vector", "why_tests_cant": "Continuum of inputs.", "anchors": ["dream/compressible/eos.py: IdealGas", "dream/compressible/solver.py: get_conservative_convective_jacobian, get_primitive_convective_jacobian, transform_primitive_to_conservative"]}
{"id": "C45", "title": "Convective Jacobians are the derivatives of the convective flux", "statement": "The convective flux is the Euler flux (mass, momentum plus pressure, total enthalpy transport) in every dimension whichever fields it is computed from, raises ValueError exactly if the fields do not determine it, and in two dimensions its derivative along any curve of states is the provided Jacobian applied to the derivative of the conservative variables.", "quantifier": "every valid state in every dimension, every set of given fields, every smooth curve of states", "why_tests_cant": "Analytic statement.", "anchors": ["dream/compressible/eos.py: conservative_convective_jacobian_x, conservative_convective_jacobian_y", "dream/compressible/solver.py: get_convective_flux"]}
{"id": "C46", "title": "Incoming/outgoing splitting is complete", "statement": "The incoming and outgoing Jacobians sum to the full Jacobian and their difference is the absolute Jacobian. The incoming (outgoing) identity keeps exactly the waves with negative (positive) speed: it is a projection whose product with the Jacobian is the incoming (outgoing) Jacobian. The two identities sum to the identity if no characteristic speed vanishes, and never do if one vanishes (e.g. for flow tangential to the boundary). Other options raise ValueError.", "quantifier": "every state and unit normal", "why_tests_cant": "The failing set has measure zero, so sampling tests miss it.", "anchors": ["dream/compressible/solver.py: get_conservative_convective_identity, get_conservative_convective_jacobian", "dream/compressible/eos.py: characteristic_velocities"]}
{"id": "C47", "title": "Numerical flux is consistent and conservative", "statement": "The numerical normal flux of a facet equals the physical normal flux of the trace state whenever element and trace states agree, for every Riemann solver and dimension in which it exists (in two dimensions all solvers, otherwise Lax-Friedrichs and HLL; the others raise NotImplementedError). In two dimensions the stabilisation matrix of every solver is diagonal in the characteristic basis with the documented dissipation of each wave (Lax-Friedrichs |un|+c, Roe the absolute wave speed, HLL the positive part of un+c, Upwind the positive wave speeds, HLLEM the HLL value times the shear detector on entropy and vorticity), all dissipations are nonnegative and ordered Upwind <= Roe <= Lax-Friedrichs and Upwind <= HLLEM <= HLL <= Lax-Friedrichs. The physical parts of the fluxes of both sides of a facet cancel; with Lax-Friedrichs the facet equation holds exactly if the trace is the mean of the two states; the upwind matrices of both sides add up to the Roe matrix.", "quantifier": "every state, unit normal and solver option", "why_tests_cant": "Continuum of inputs.", "anchors": ["dream/compressible/riemann_solver.py: Upwind, LaxFriedrich, Roe, HLL, HLLEM", "dream/compressible/formulations/conservative.py: ConservativeMethod.get_conservative_fields, HDG.get_convective_numerical_flux"]}
{"id": "C48", "title": "Farfield reference state is consistent with the scaling", "statement": "For every scaling and Mach number > 0 the reference farfield state has unit density, the documented sound speed and the documented speed in the given direction; all its fields obey the ideal gas law; its local Mach number is the Mach number that was set, and with the reference Reynolds number that scales the viscous terms its Reynolds number is the one that was set, for every law of viscosity. A direction of another dimension raises, a zero Mach number raises for the aerodynamic scaling and yields a gas at rest otherwise. (Temperature and pressure are the documented ones except for the aeroacoustic scaling, where the documentation has 1 + Ma^2 for (1 + Ma)^2.)", "quantifier": "every Mach number, heat capacity ratio, direction and scaling", "why_tests_cant": "Continuum of inputs.", "anchors": ["dream/compressible/solver.py: get_farfield_state, get_local_mach_number, get_local_reynolds_number", "dream/compressible/scaling.py: Aerodynamic, Acoustic, Aeroacoustic"]}
{"id": "C49", "title": "Viscosity laws", "statement": "The constant law gives one; Sutherland's law is the law known from the literature in Kelvin, relative to the farfield: it gives exactly one at the farfield state, is positive and strictly increasing in the temperature, for every scaling and Mach number; it raises if the temperature itself is not among the fields; the inviscid law always raises.", "quantifier": "every temperature > 0, measurement temperatures > 0, every scaling and Mach number", "why_tests_cant": "Continuum of inputs.", "anchors": ["dream/compressible/viscosity.py: Inviscid, Constant, Sutherland"]}
{"id": "C50", "title": "Boundary conditions impose what they are named after", "statement": "Whenever the boundary residual vanishes for given interior and facet unknowns: the outflow facet state has the prescribed pressure and the interior density and momentum; the inviscid wall and symmetry facet state has no normal momentum, and the interior density, tangential momentum and energy; the isothermal wall facet state has zero velocity, the interior density and the prescribed temperature; and conversely. The far-field facet state agrees with the interior on outgoing waves and with the far field on incoming waves, so a supersonic outflow copies the interior and a supersonic inflow the far field. An adiabatic wall can not be set up. (With the default identity Jacobian a uniform flow satisfies the far-field condition only if no wave stands still: false for flow along the boundary.)", "quantifier": "every admissible interior and facet state, unit normal and prescribed fields", "why_tests_cant": "Continuum of inputs.", "anchors": ["dream/compressible/formulations/conservative.py: HDG.add_farfield_formulation, add_outflow_formulation, add_inviscid_wall_formulation, add_isothermal_wall_formulation, add_adiabatic_wall_formulation, add_boundary_conditions", "dream/compressible/config.py: FarField, Outflow, InviscidWall, Symmetry, IsothermalWall, AdiabaticWall"]}
{"id": "C51", "title": "Viscous stress and heat flux", "statement": "The strain rate tensor is symmetric, vanishes in rigid motion and has the trace (1 - dim/3) div u; the viscous stress is 2 mu/Re_ref times it, symmetric, and its power in the deformation is never negative; the heat flux is opposite to the temperature gradient; the diffusive flux has no mass component, and carries the stress and its work minus the heat flux; without gradients it vanishes; the numerical diffusive flux carries no mass and is consistent. Missing gradients raise. The strain-heat unknowns are the upper triangle of the strain rate, row by row, and the temperature gradient. (In two dimensions the strain rate is not trace free; the 'gradient' mixed method provides no velocity or temperature gradient, so the diffusive flux always raises.)", "quantifier": "every velocity gradient and state", "why_tests_cant": "Continuum of inputs.", "anchors": ["dream/compressible/solver.py: strain_rate_tensor, deviatoric_stress_tensor, heat_flux, get_diffusive_flux", "dream/compressible/formulations/conservative.py: HDG.get_diffusive_numerical_flux, MixedMethod.get_diffusive_stabilisation_matrix, StrainHeat.get_mixed_fields, Gradient.get_mixed_fields"]}
{"id": "C52", "title": "Characteristic relaxation settings reach the intended waves", "statement": "The relaxation matrix of a characteristic boundary condition is diagonal, in the order acoustic, entropy, vorticity, acoustic, and contains the factor the user specified for that wave, divided by the time step (GRCBC) or multiplied by the reference speed of the wave over the length (NSCBC). A missing time step, sound speed or Mach number raises. (Holds for scalars and for sequences of five factors; dictionary keys are ignored in favour of the order, four factors in two dimensions lose the last one, fewer than four raise KeyError, values of other types are accepted and fail later.)", "quantifier": "every factor specification", "why_tests_cant": "Universal over specifications.", "anchors": ["dream/compressible/config.py: CBC.relaxation_factor, CBC.get_relaxation_matrix, GRCBC.get_relaxation_matrix, NSCBC.get_relaxation_matrix"]}
{"id": "C53", "title": "Isentropic relation", "statement": "The isentropic density of a state relative to a reference state satisfies p/rho^gamma = p_ref/rho_ref^gamma, whether it is computed from the pressures or from the temperatures (with the pressure of the gas law), and returns the reference density at the reference pressure. It is computed exactly if the reference density and both pressures or both temperatures are given; otherwise ValueError is raised.", "quantifier": "every positive state pair and heat capacity ratio", "why_tests_cant": "Continuum of inputs.", "anchors": ["dream/compressible/eos.py: isentropic_density"]}
{"id": "C54", "title": "Dimensional values", "statement": "The dimensional state of a set of fields contains exactly those of its quantities for which a dimensional reference value is set, each being the product of the field and its reference value.", "quantifier": "every history of field and reference assignments, every product operation", "why_tests_cant": "Continuum of inputs.", "anchors": ["dream/compressible/solver.py: get_dimensionful_state", "dream/compressible/scaling.py: Scaling.dimensionful_values"]}
{"id": "C55", "title": "Boundary conditions are translated completely", "statement": "When the variational form is set up, every boundary condition of the pattern view contributes exactly one term, of the formulation belonging to its kind and on exactly the regions it is assigned to, periodic conditions contribute none, other terms stay, and every boundary treated as a domain boundary is covered by a term; setting up fails exactly if some condition cannot be translated. (False for domain conditions: four of the seven offered kinds always fail and polynomial sponge layers are treated as ordinary ones; a boundary with a periodic and another condition has a term but is not treated as a domain boundary.)", "quantifier": "every history of condition assignments, every iteration order of the condition set", "why_tests_cant": "Universal over histories, condition kinds and hash orders.", "anchors": ["dream/compressible/formulations/conservative.py: HDG.add_boundary_conditions, HDG.add_domain_conditions, HDG.get_domain_boundary_mask", "dream/mesh.py: Conditions.to_pattern, BoundaryConditions.get_domain_boundaries", "dream/compressible/config.py: BCS, DCS"]}
{"id": "C56", "title": "Ring mesh triangles are not inverted", "statement": "For radii 0 < ri < ro and any positive grading, all triangles of the ring mesh are positively oriented exactly if every layer satisfies r_j < r_{j+1} cos(pi/n_polar). (The accepted parameters do not guarantee this: every ring with ro cos(pi/n_polar) <= ri contains degenerate or inverted triangles and is returned without an error. The closing outer boundary element runs against the others.)", "quantifier": "every admissible number of elements, all radii and gradings", "why_tests_cant": "Continuum of radii and gradings, unbounded number of elements.", "anchors": ["dream/mesh.py: get_cylinder_omesh"]}
{"id": "C57", "title": "Conservative unknowns describe the physical state", "statement": "The flow fields derived from the conservative unknowns are those of the state they encode; unknowns with positive density and inner energy encode exactly one physical state; assembling the unknowns from any consistent and determining set of fields gives the vector of that state, and otherwise raises; the gradient fields derived from the unknowns and their gradients are the gradients of the derived fields.", "quantifier": "every unknown vector of every dimension, every consistent set of fields, every smooth flow", "why_tests_cant": "A continuum of states and exponentially many sets of given fields.", "anchors": ["dream/compressible/formulations/conservative.py: ConservativeMethod.get_conservative_fields, get_conservative_gradient_fields, set_initial_conditions, HDG.add_farfield_formulation"]}
{"id": "C58", "title": "Characteristic boundary conditions act wave by wave", "statement": "A GRCBC or NSCBC boundary residual treats each characteristic wave separately: outgoing waves copy the interior amplitude, incoming waves relax from their old amplitude towards the amplitude of the target at the rate of the relaxation matrix, so that the new amplitude lies between both and the distance shrinks by the factor 1 + dt rate. The target of 'farfield' is the given state, of 'outflow' the interior density and velocity with the given pressure, of 'mass_inflow' the given density and velocity with the interior pressure, of 'temperature_inflow' the given velocity with the interior temperature and the density on the isentrope of the given state. In three dimensions the condition raises. (A wave that stands still is forced to zero, so uniform flow along the boundary is not preserved; a mass inflow given by density and velocity only raises TypeError.)", "quantifier": "every facet, interior and old state, unit normal, relaxation factor, tangential factor, time step and target", "why_tests_cant": "Couples a continuum of states with the sign pattern of the wave speeds.", "anchors": ["dream/compressible/formulations/conservative.py: HDG.add_cbc_formulation", "dream/compressible/config.py: CBC, GRCBC, NSCBC"]}
{"id": "C59", "title": "Static condensation does not change the Newton correction", "statement": "One update step of the nonlinear solver computes the solution of the linearized system in the free unknowns (zero in the others), and the correction is the same with and without static condensation. On a linear problem every iteration multiplies the residual by one minus the damping factor, so an undamped solve is exact after its first iteration, and unless convergence is reported all iterations are made. The reported iteration error bounds the correction if the linearization is positive definite and no condensation is used. It does not in general: with a skew-symmetric linearization the error is zero whatever the residual, and with static condensation the error is computed from a modified residual, so that the number of iterations and the result of a solve may change.", "quantifier": "all numbers of unknowns, matrices, residuals, choices of eliminated and free unknowns, damping factors, criteria and numbers of iterations", "why_tests_cant": "A test compares two runs up to solver tolerance on one problem; equality of the corrections for every matrix and splitting, and the cases where the stopping decision differs, need an argument over all systems.", "anchors": ["dream/solver.py: DirectNonlinearSolver.solve_update_step, NonlinearSolver.solve, set_iteration_error, NewtonsMethod.update_solution"]}
{"id": "C60", "title": "Discrete conservation of mass, momentum and energy", "statement": "Whenever the unknowns solve the discrete problem of a time step, then in every set of elements the rate of change of mass, each momentum component and energy that the scheme computes equals minus what the numerical fluxes (convective minus diffusive) carry out through the boundaries of the elements minus what sponge layers take; on every set of interior (or periodic) facets what leaves the elements on one side enters those on the other; and so, after any number of implicit Euler steps of any sizes, the content of the domain is the initial one minus the sum of the losses through the domain boundaries and sponge layers. BDF2 obeys the corresponding two-level recursion with the start-up of the code. On a periodic domain without sponge layers the contents never change, with either scheme.", "quantifier": "all meshes, quadrature rules per integral, orders (any element and facet spaces containing the functions constant on each element and facet), Riemann solvers, viscosity laws, boundary conditions, sponge layers, sequences of time steps, sets of elements and facets, components", "why_tests_cant": "A test compares sums on one mesh with one solver to a tolerance; the claim is exact and for every mesh, every set of elements and every history of steps.", "anchors": ["dream/compressible/formulations/conservative.py: HDG.add_convection_form, add_diffusion_form, add_boundary_conditions, add_domain_conditions, get_domain_boundary_mask", "dream/time.py: ImplicitSchemes.add_symbolic_temporal_forms, ImplicitEuler.get_time_derivative, BDF2.get_time_derivative"]}
{"id": "C61", "title": "Walls are tight", "statement": "Where the condition of an inviscid wall (or symmetry) holds, no mass and no energy passes the wall with the Lax-Friedrich and HLL solvers in any dimension, and with Roe and HLLEM in 2D; where the condition of an isothermal wall holds, no mass passes it (convective and diffusive flux). Hence a closed box of such walls keeps its mass (and, with inviscid walls, its energy) for all implicit Euler steps. With the upwind solver this is false: the mass flux through an inviscid wall is half of rho times the normal velocity of the gas beside it.", "quantifier": "all valid states beside the wall, all unit normals, all dimensions, all meshes and time step sequences", "why_tests_cant": "A leak depends on the state next to the wall; sampling states with zero normal velocity or a symmetric flow shows no leak, and tolerances hide slow ones.", "anchors": ["dream/compressible/formulations/conservative.py: HDG.add_inviscid_wall_formulation, add_isothermal_wall_formulation, get_convective_numerical_flux", "dream/compressible/riemann_solver.py"]}
{"id": "C62", "title": "Uniform flow is kept on every mesh", "statement": "If all unknowns and all older time levels hold one uniform flow without gradients, every boundary condition accepts that flow and it is the target of all sponge layers, then the residual of the discrete problem vanishes for every test function: uniform flow is a solution of the time step with implicit Euler and with BDF2, inviscid or viscous, with every Riemann solver available in the dimension. The convection form and the diffusion form vanish separately. Only the divergence theorem for the test functions and opposite normals on the two sides of interior facets are used.", "quantifier": "all meshes and rules exact for the divergence of the test functions, all physical states, Riemann solvers, viscosity laws, boundary conditions, sponge layers, time steps, test functions", "why_tests_cant": "A test fixes a mesh, an order and a state; the cancellation between element, facet and mask terms must hold for all of them.", "anchors": ["dream/compressible/formulations/conservative.py: HDG.add_convection_form, add_diffusion_form, get_convective_numerical_flux, get_diffusive_numerical_flux, get_domain_boundary_mask", "dream/time.py: ImplicitEuler, BDF2"]}
{"id": "C63", "title": "The mixed unknown is the strain rate and the temperature gradient", "statement": "For every flow that can be integrated by parts on the mesh, the mixed form equals the quadrature of the distance between the mixed unknown and (strain rate, temperature gradient) against the test function; hence with positive weights it vanishes for all test functions exactly if the unknown holds the strain rate (symmetric velocity gradient minus a third of the divergence) and the temperature gradient, and this strain rate is the one the solver computes from a velocity gradient. For any unknowns at all that solve the form, the sums of strain rate and temperature gradient over every set of elements are given by the facet velocity and temperature on the element boundaries. A uniform flow has zero as mixed unknown. The gradient method's form measures the distance from the gradient of the unknowns in the same way. In three dimensions the strain-heat form raises NotImplementedError.", "quantifier": "all meshes, quadrature rules, states, test functions, sets of elements; two dimensions (any dimension for the gradient method)", "why_tests_cant": "A wrong index or sign in the divergence of the deviator is invisible for flows in which that derivative vanishes; the identity must hold for every flow and test function.", "anchors": ["dream/compressible/formulations/conservative.py: StrainHeat.add_mixed_form, StrainHeat.get_mixed_fields, Gradient.add_mixed_form", "dream/compressible/solver.py: strain_rate_tensor"]}
{"id": "C64", "title": "Jacobians of the diffusive flux and the viscous terms of characteristic outflows", "statement": "Along every differentiable line of flow states and mixed unknowns in two dimensions, the derivative of the diffusive flux through any direction equals the conservative diffusive Jacobian times the change of the state plus the mixed diffusive Jacobian times the change of the mixed unknown plus the relative change of viscosity times the flux; with constant viscosity the two Jacobians therefore give the whole derivative. With Sutherland's law they do not, because the Jacobian ignores the change of viscosity. The viscous terms of a characteristic boundary condition have an exact value for every state and gradient: it is the normal derivative of the retained part of the flux on vertical boundaries, but differs from it on other boundaries because a flat matrix index picks a shear instead of a normal entry; on a horizontal outflow the normal stress derivative is lost. Without gradients there are no viscous terms. The inactive and gradient methods give zero terms, three dimensions raise NotImplementedError, an inviscid solver raises an error.", "quantifier": "all differentiable lines of states and mixed unknowns, directions, viscosities, gradients, boundary normals; two dimensions", "why_tests_cant": "A wrong entry of a Jacobian shows up only for states where its multiplier is nonzero; the identity with the derivative must hold for every line through the state space.", "anchors": ["dream/compressible/formulations/conservative.py: StrainHeat.get_conservative_diffusive_jacobian, get_conservative_diffusive_jacobian_x, get_conservative_diffusive_jacobian_y, get_mixed_diffusive_jacobian, get_mixed_diffusive_jacobian_x, get_mixed_diffusive_jacobian_y, get_cbc_viscous_terms, MixedMethod.get_cbc_viscous_terms"]}
{"id": "C65", "title": "Which problems can be set up, and what the set-up builds", "statement": "Initialising a solver in two or three dimensions succeeds exactly if every condition in effect and the physical model are supported, whatever the values of the unknowns: complete states for far field, initial condition and sponge layer, pressure for outflow, temperature for isothermal walls, the fields of the target and five relaxation factors for characteristic conditions, no mixed method for inviscid flow and the strain-heat method in two dimensions for viscous flow, Lax-Friedrich or HLL flux in three dimensions, a periodic condition on a periodic mesh, and layers that do not raise the order. If no two conditions have the same regions, success does not depend on the order in which sets are traversed. After success there are exactly the spaces, time levels and forms of the configuration, one term per boundary condition in effect except periodic ones, one per sponge layer in effect, and no other terms. Adiabatic walls, PML, force, perturbation, grid deformation, far field or characteristic conditions in three dimensions and characteristic conditions without time stepping can never be set up; an initial state given as plain dictionary raises AttributeError; a sponge layer on the same domains as the initial condition loses its term for some traversal orders.", "quantifier": "all configured problems (settings, mixed method, time configuration, reachable boundary and domain conditions, options), all traversal orders of the condition sets, all values of the unknowns", "why_tests_cant": "Success depends on the combination of model, dimension, conditions and their fields, and on the traversal order of Python sets, which changes from run to run; tests try a few combinations and one order.", "anchors": ["dream/solver.py: SolverConfiguration.initialize, set_boundary_conditions", "dream/compressible/formulations/conservative.py: ConservativeFiniteElementMethod, HDG.add_finite_element_spaces, add_boundary_conditions, add_domain_conditions, add_farfield_formulation, add_cbc_formulation, add_outflow_formulation, add_isothermal_wall_formulation, add_adiabatic_wall_formulation, add_sponge_layer_formulation, StrainHeat, Inactive, Gradient", "dream/mesh.py: Initial.fields, SpongeLayer.target_state, Conditions.to_pattern, DomainConditions.reduce_psponge_layers_order_elementwise", "dream/time.py: TimeSchemes.initialize"]}
{"id": "C66", "title": "Characteristic variables and wave amplitudes are those of the Euler equations", "statement": "For a flow in two dimensions given by density, velocity and speed of sound, with gradients of density, pressure and velocity that are the derivatives along the coordinate lines, and a unit direction: the characteristic variables are the derivatives in that direction of the primitive variables multiplied with the primitive-to-characteristic matrix, and equally of the conservative variables multiplied with the conservative-to-characteristic matrix. The wave amplitudes are the characteristic variables multiplied by the selected part (all, incoming, outgoing) of the wave speeds; multiplied with the characteristic-to-primitive matrix they give the selected part of the convective Jacobian times the derivatives. Incoming and outgoing amplitudes add up to all amplitudes and a wave is in one of them only. The amplitudes satisfy the local one-dimensional inviscid relations: the rates in time of density, normal and tangential velocity and pressure of a plane inviscid flow are the documented combinations of them. Missing fields and unknown options raise ValueError, other dimensions NotImplementedError.", "quantifier": "all heat capacity ratios above one, positive states, differentiable flows, gradients, unit directions and splittings", "why_tests_cant": "The relations connect values with derivatives of arbitrary differentiable flows for every direction; a test compares numbers at a few points and cannot tell a sign that vanishes for the flow it uses.", "anchors": ["dream/compressible/eos.py: IdealGas.characteristic_velocities, characteristic_variables, characteristic_amplitudes", "dream/compressible/solver.py: CompressibleFlowSolver.characteristic_velocities, characteristic_variables, characteristic_amplitudes"]}
{"id": "C67", "title": "Aerodynamic coefficients and local numbers", "statement": "For every valid flow state, by whichever sufficient fields it is given: the stress tensor is minus the pressure on the diagonal plus the viscous stress of a viscous flow, and symmetric. The pressure coefficient is the pressure difference to the reference over the dynamic pressure of the reference, is zero exactly at the reference pressure, and is the same in all units. Drag and lift coefficient are the component of the force per area (stress times normal) in the given direction over the reference dynamic pressure; the length of the direction does not matter, the opposite direction or normal changes the sign, and in two dimensions coefficients for orthogonal directions contain the whole force. Summed over a closed surface they do not depend on the level of the pressure, and vanish for uniform pressure without viscosity. The local Mach number is speed over speed of sound, the local Reynolds number is density times speed over viscosity. Insufficient fields raise ValueError. Two expectations are false and proved so: with the normal of the mesh, which points out of the flow, a high pressure on the windward side of a body gives negative drag; and the local Reynolds number of the far field is the far field speed of the scaling, whatever Reynolds number was configured.", "quantifier": "all configurations, valid states and references, sets of given fields, directions, normals, units, closed surfaces with any number of points", "why_tests_cant": "The coefficients must be right for every state, every way to give it, every direction and unit system; invariance under units and pressure level are statements about pairs of flows that no finite set of values settles.", "anchors": ["dream/compressible/solver.py: CompressibleFlowSolver.pressure_coefficient, stress_tensor, drag_coefficient, lift_coefficient, get_local_mach_number, get_local_reynolds_number"]}
{"id": "C68", "title": "Sponge layers damp towards their target and keep the flow physical", "statement": "A sponge layer adds its function times the difference between the conservative unknowns and those of its target state, however the target is given; it adds nothing exactly where the function vanishes or the flow is the target; targets that do not determine a state raise ValueError. With the offered profiles and a weight that is not negative it adds nothing before the start of the layer, has the full weight behind its end, and never drives the flow away from the target. A uniform flow in a domain that the layer covers, with boundary conditions that accept it: an implicit Euler step of the whole discrete problem holds for all test functions exactly if it is the implicit Euler step of the relaxation towards the target. Such a step keeps density and pressure positive whatever the time step and strength, reduces the distance to the target by the factor 1 + dt w, and a run of any length exists from every physical uniform flow and tends to the target. With BDF2 the same holds of its step; no step lets the distance of the last two levels to the target grow (in the norm of that scheme), whatever the time step and strength, and every run tends to the target. A BDF2 step keeps density and pressure positive if the weighted difference of the two levels has them; from two physical levels alone it need not. With the start-up of the code (both levels equal) and dt w <= 1/2 a BDF2 run of any length exists from every physical uniform flow, stays physical, never gets further from the target and tends to it; for longer steps it overshoots the target and may lose positivity.", "quantifier": "all target states and ways to give them, all layer profiles, coordinates, weights, states, time steps, meshes, quadrature rules, test spaces containing constants and numbers of steps", "why_tests_cant": "A wrong sign or factor of the damping term shows only as instability after long runs; positivity and convergence are statements about all states and arbitrarily many steps.", "anchors": ["dream/compressible/formulations/conservative.py: HDG.add_sponge_layer_formulation", "dream/mesh.py: SpongeLayer, SpongeFunction.polynomial, SpongeFunction.penta", "dream/time.py: ImplicitEuler, BDF2"]}
{"id": "C69", "title": "Sensors measure the regions asked for", "statement": "A domain or boundary sensor with a sequence of region names has one location per existing name, in the order of first mention and without repetitions, and reports for each location, field and component the integral over exactly the elements of that region; with a string 'a|b' it has one location labelled with the existing names and reports the integral over all of them, which is the sum of what sensors of the single regions report; a domain sensor without regions reports the whole domain. This needs fields with more than one component in total, or more than one field for L2 sensors: otherwise every measurement raises ValueError although the sensor opened and wrote its header. Names that do not exist are warned about, each once, and nothing else is. Opening a sensor again finds the same regions. L2 sensors report the L2 norm of each field: not negative, zero only if the field vanishes at all quadrature points, homogeneous, subadditive and growing with the regions. A point sensor with the name of boundaries measures each vertex of these boundaries once, one with points exactly these, in the order of its columns.", "quantifier": "all meshes, element and region names, quadrature rules, fields with any number of components, region options, and traversal orders of sets", "why_tests_cant": "The tests use one mesh with one material and existing names; missing and repeated names, overlapping patterns, several regions and fields, and reopening multiply beyond examples, and norm properties are about all fields.", "anchors": ["dream/io.py: Sensor.open, RegionSensor.set_regions, RegionSensor.measure, DomainSensor, DomainL2Sensor, BoundarySensor, BoundaryL2Sensor, PointSensor, SensorStream.measure", "dream/mesh.py: get_regions_from_pattern, get_pattern_from_sequence"]}
{"id": "C70", "title": "Layer functions are least squares fits of the given functions", "statement": "The function computed for sponge layers is zero on every element outside the layers. On every element of a layer it is a polynomial of the order configured for the layer (with several layers on the element, the last one), no polynomial of this order is closer to the sum of the functions given for the layers containing the element, and its integral over the element is that of the sum; given functions that are such polynomials are reproduced exactly, a higher order never increases the distance, and with the default order 0 the function is the mean value on every element and stays within the bounds of the given functions. The result is determined by orders and sums. The call raises TypeError for types that are no buffers and for layers of another type, NotImplementedError for the base class, ValueError without layers or for a layer without function, and succeeds otherwise.", "quantifier": "all meshes, region names, numbers, orders and overlaps of layers, given functions, and quadrature rules exact on the spaces", "why_tests_cant": "The tests compare one layer on one mesh with one function; optimality compares with all polynomials, and overlapping layers of different orders multiply beyond examples.", "anchors": ["dream/mesh.py: DomainConditions.get_buffer_function_, get_sponge_layer_function, get_psponge_layer_function, SpongeLayer.get_space, GridDeformation.get_space, Buffer.get_space, Buffer.function"]}
{"id": "C71", "title": "A simulation starts from the prescribed states", "statement": "In every element the initial unknowns are those of the state prescribed in its domain, whatever complete set of fields describes it: mass, momentum and energy of every element and of the whole mesh are those of the prescribed state, a state that is a polynomial of the order of the space is taken over exactly on elements and facets, a uniform flow prescribed everywhere is the initial flow on all elements and facets, and a facet between two domains starts from the average of both sides. With order 0 the initial flow has positive density and pressure if the prescribed states have.", "quantifier": "all meshes, domains, complete descriptions of states that vary in space, orders per element, and quadrature rules exact on the spaces", "why_tests_cant": "No test looks at initial values; conservation and exactness are statements about all prescribed functions, meshes and orders.", "anchors": ["dream/compressible/formulations/conservative.py: ConservativeFiniteElementMethod.set_initial_conditions, HDG.set_initial_conditions, ConservativeMethod.set_initial_conditions", "dream/mesh.py: Initial, Conditions.to_pattern"]}
{"id": "C72", "title": "Time stepping is stable for every time step and converges", "statement": "For problems whose spatial form is dissipative, two transient runs of the same problem never move further apart than their initial distance (implicit Euler) or the square root of two times it (BDF2), plus the step times the accumulated differences of what the solver leaves unsolved (four times for BDF2), however large the time step. Against a smooth exact solution the error after n steps is at most the initial error plus the elapsed time times (half the step times the bound of the second derivative, plus the solver's residual) for implicit Euler; for BDF2 it is at most twice the initial error, plus the change of the exact solution over one step before the start, plus four times the elapsed time times (the square of the step times the bound of the third derivative, plus the residual), so second order is reached when the exact solution starts at rest. It is not reached in general: since both old levels start from the initial state, u' = b leaves an error tending to b h / 2.", "quantifier": "all time steps, numbers of steps, dissipative spatial forms that may change from step to step, spaces, initial states, solver residuals and smooth exact solutions", "why_tests_cant": "Stability and order are statements about all steps, histories and problems; a test sees one problem at finitely many steps.", "anchors": ["dream/time.py: ImplicitSchemes.add_symbolic_temporal_forms, ImplicitEuler.get_time_derivative, BDF2.get_time_derivative, TimeSchemes.update_gridfunctions, TimeSchemes.set_initial_conditions, TransientConfig.start_solution_routine"]}
{"id": "C73", "title": "Saved files keep what was saved", "statement": "After a save that returns, the file it names holds the saved object, every file the call was not asked to write keeps its content, nothing is removed, and the log only grows. Loading a mesh, settings or a grid function returns the object saved last at its place, whatever is saved, loaded or reconfigured in between: streams of different kinds never share a file, except that the mesh and the pickled settings share one exactly if folder and name agree. With names that contain no folder, saving makes the configured folder and succeeds unless a file lies in the way. A mesh and settings saved under the same name in the same folder replace each other, and loading the mesh then returns settings; a name containing a new folder cannot be saved; loading from a missing folder creates it before it raises.", "quantifier": "all file systems, folder and file names, sequences of saves, loads and reconfigurations", "why_tests_cant": "Overwriting depends on the whole history of saves and on all combinations of names and folders.", "anchors": ["dream/io.py: MeshStream.save_pre_time_routine, MeshStream.load_routine, SettingsStream.save_pre_time_routine, save_to_pickle, save_to_txt, save_to_yaml, load_from_pickle, GridfunctionStream.save_gridfunction, load_gridfunction, LogStream.to_file, SensorStream.open_csv_writers, Stream.path"]}
{"id": "C74", "title": "Timers are right in floating-point numbers", "statement": "With every number an IEEE double, a timer whose interval is a whole number of strides of its step, all written in decimals, visits every time point once, in strictly increasing order and closer to it than a fifth of a unit of the last decimal of the step, as long as the end counts fewer than 2^48 such units. If the step is at most one half, or exactly a double, and the start has no more decimals than the step, then every label is the double nearest to the decimal number of that point, that is what the user gets by typing it, and no two labels agree. For all doubles, time never runs backwards unless it overflows, runs with different strides give the same point the same time and the same label, and an interval of finite numbers is accepted exactly if 0 <= start < end. For steps above one half the number of decimals may be wrong: 0.56 and 1.1 get sixteen, and with step 1.1 the third label is not 3.3. NaN passes as a start and makes every run raise.", "quantifier": "all doubles nearest to decimals with at most 16 places, intervals, strides and numbers of steps in the stated range; all doubles for monotonicity and acceptance", "why_tests_cant": "Rounding errors differ for every step and start; there are far too many doubles to try.", "anchors": ["dream/time.py: Timer.interval, Timer.step, Timer.start, Timer._set_digit"]}
{"id": "C75", "title": "The cylinder geometry covers the ring it is asked for and names its parts", "statement": "For radii in increasing order (cylinder with boundary layer, transition, far field, sponge), at least one transition layer and positive growth, the geometry meshed around a cylinder covers exactly the points outside the cylinder and inside the outermost circle: no gap, nothing beyond. With a sponge every part of it bears the name of the sponge beyond the far field and the name of the sound region up to it, and the flat copy of the mesh gives every triangle the name of the face it was made from. The circles of the transition regime climb strictly from the boundary layer to the transition radius, and the layers between them never get thinner outwards for a growth of at least one. A negative boundary layer and a sponge inside the far field are refused with ValueError and nothing else is; no layers fail with ZeroDivisionError or UnboundLocalError. Not so: the element sizes are given to the transition circles in reverse order, so the finest elements are asked for at the outer circle and the coarsest at the cylinder; without a sponge the curved geometry leaves everything upstream of the wake without a name; a transition radius beyond the far field is accepted and the domain sticks out of its outer circle.", "quantifier": "all real radii, thicknesses, growths and factors, numbers of layers, names, and points of the plane", "why_tests_cant": "Sizes are reals and the claim is about every point of the domain; a mesh for one set of sizes says nothing of others.", "anchors": ["dream/mesh.py: get_cylinder_mesh"]}
{"id": "C76", "title": "A restarted run continues the run it was restarted from", "statement": "A transient run (implicit Euler or BDF2) is killed at any moment, even between two files, after it has saved a time point whose counter is due for states and for time levels. A freshly built configuration with the same variables that loads the time levels and the state of that time point, in either order, holds exactly what the killed run had in memory then; so does one that loads the last time point of a complete run, if that counter was due for the time levels or not due for the state. If start, end and step are written in decimals, the label of the time point is accepted as the new start, the restarted run goes through exactly the labels an uninterrupted run has after that point and, if the solve does not depend on the time itself, through exactly its states. If every time point is saved, the files of both runs together replay the uninterrupted run. With implicit Euler the state file followed by setting the old levels from it suffices. Not so: with BDF2 the state file alone never suffices unless the last step changed nothing; loading the state alone leaves the old levels of the fresh configuration; the restarted run replaces the file of the initial state at 0.0 by the state it restarts from; with a rate above one the restarted run does not save the time points the uninterrupted run saves; the times the solver is given differ from those of the uninterrupted run in their last bits, and after a run the clock, which names the first file of the next run, is not at the last label.", "quantifier": "all variables and contents, solves, rates, moments of the kill, saved time points, decimal intervals and steps, earlier files, and fresh configurations with the same variables", "why_tests_cant": "The moment of the kill, the time point restarted from and the contents are arbitrary, and equality with a run that never happened must hold for all of them.", "anchors": ["dream/time.py: TransientConfig.start_solution_routine, Timer.start, Timer.interval, TimeSchemes.update_gridfunctions, TimeSchemes.set_initial_conditions", "dream/io.py: GridfunctionStream.load_routine, load_time_levels, load_transient_routine, save_pre_time_routine, save_in_time_routine, save_post_time_routine"]}
{"id": "C77", "title": "Small disturbances of a uniform flow do not grow", "statement": "An inviscid run in two dimensions around a uniform flow: far-field boundaries given that flow, with or without the Jacobian of the flux, at which no wave stands still, straight walls and symmetry planes parallel to the flow, periodic boundaries, sponge layers that pull towards the flow, and any of the offered Riemann solvers (except upwind if there are walls). If a family of runs leaves the uniform flow at a differentiable rate, then that rate has an energy, the integral of the energy of its velocity and of its pressure plus any positive multiple of the square of its entropy part, which is positive unless the rate vanishes and which never grows from one implicit Euler step to a later one; with BDF2 started from two equal levels it never exceeds twice its first value. This holds for every time step, every mesh, every order of the elements and any number of steps.", "quantifier": "all uniform physical flows, gas constants, Riemann solvers, meshes of any number of elements, quadrature rules that integrate products of test functions exactly, far fields, walls, sponge layers, time steps, weights of the entropy part, differentiable families of runs and numbers of steps", "why_tests_cant": "An instability appears for particular wave directions, meshes and time steps and possibly only after very many steps; a test sees single runs.", "anchors": ["dream/compressible/formulations/conservative.py: HDG.add_convection_form, get_convective_numerical_flux, add_farfield_formulation, add_inviscid_wall_formulation, add_sponge_layer_formulation", "dream/compressible/riemann_solver.py: Upwind, LaxFriedrich, Roe, HLL, HLLEM", "dream/compressible/solver.py: get_conservative_convective_jacobian, get_conservative_convective_identity", "dream/time.py: ImplicitEuler.get_time_derivative, BDF2.get_time_derivative"]}
{"id": "C78", "title": "A sensor file reads back as what was measured", "statement": "After a transient run in the default mode 'w', whatever the file held before and whatever characters regions, points and field names contain, a CSV reader finds exactly the header and the rows that were measured, and load_as_dataframe has one column per location, field and component, so named, and one row per due time point with the measured values. Rows of later runs in mode 'a' are added behind, everything before the last run in mode 'w' is gone, and different measurements never give the same file. If the process is killed after any number of bytes, all rows whose bytes were written are read, followed by at most one torn row, and what an earlier run had written stays. Rows with fewer cells than the header are filled up with empty cells, mode 'r+' writes over the beginning of the file and leaves the rest. Not guaranteed, with counterexamples: a torn row can look complete, appending to it glues two rows together and makes the whole file unreadable for load_as_dataframe, mode 'a' on a new file and spellings such as 'wt' leave no header so that load_as_dataframe takes data for names, and on Windows line feeds inside names change.", "quantifier": "all texts of cells, header and data rows, histories of runs, modes, contents of the file before, numbers of bytes written before a kill, platforms, sensors, rates, locations, fields and numbers of time points", "why_tests_cant": "The set of names, histories of runs and kill points is unbounded; quoting and truncation errors show only for particular texts and particular numbers of bytes.", "anchors": ["dream/io.py: SensorStream.open_csv_writers, get_header, save_pre_time_routine, save_in_time_routine, save_post_time_routine, load_as_dataframe, mode"]}
{"id": "C79", "title": "Newton's method converges near a regular solution", "statement": "Started close enough to a solution at which the linearization is invertible and changes at most linearly with the state, the nonlinear solver without damping squares the scaled distance to the solution in every iteration, with a damping factor it shrinks the distance at least by a fixed factor, it never leaves the neighbourhood and never reports nan, with and without static condensation. If the linearization is bounded it reports convergence within a number of iterations that depends on the constants only. Without condensation and with a positive definite linearization a reported convergence bounds the distance to the solution by a multiple of the root of the criterion, without damping by a multiple of the criterion itself. The neighbourhood holds no other solution. Not guaranteed, with a counterexample: from farther away the iteration can alternate between two states for ever.", "quantifier": "all numbers of unknowns, sets of free and of eliminated unknowns, residuals with their linearizations, solutions, neighbourhoods, constants, starting states, damping factors, criteria and numbers of iterations", "why_tests_cant": "Convergence is a statement about all starting states and all iterations; a test sees finitely many problems and a wrong sign or a stale linearization can still converge on them.", "anchors": ["dream/solver.py: NonlinearSolver.solve, set_iteration_error, NewtonsMethod.update_solution, DirectNonlinearSolver.solve_update_step"]}
{"id": "C80", "title": "The state on the facets between elements", "statement": "The equation of the facet unknowns holds for every function of the facets exactly if, at every point between two elements, what the numerical flux takes out of one element enters the other. This fixes the facet state between two elements: with Lax-Friedrichs it is the mean of both states, with HLL (and with HLLEM if its threshold is positive or the flow crosses the facet) the mean weighted with the speeds of the fastest waves, with Roe every moving wave takes the mean, with Upwind every moving wave comes from the element it leaves; where the flow crosses the facet faster than sound Upwind, HLL and HLLEM take the state upstream. For all physical states of the elements such a facet state exists with all solvers but possibly Upwind, and is physical. Between equal states Lax-Friedrichs, HLL, and HLLEM with positive threshold admit no other facet state. Not guaranteed with Upwind, Roe and HLLEM without positive threshold: where the flow does not cross the facet every density solves the facet equation, and for a flow along all facets (or a viscous fluid at rest) other facet densities change no residual, so the linearized system is singular.", "quantifier": "all settings, states of two neighbours, normals and facet states (any dimension for Lax-Friedrichs and HLL, the plane for the others); all meshes, quadrature rules and test functions", "why_tests_cant": "Characterizes the solutions of a nonlinear equation for all pairs of states and all normals; the undetermined densities only show for flows that are exactly parallel to a facet.", "anchors": ["dream/compressible/formulations/conservative.py: HDG.add_convection_form, HDG.get_convective_numerical_flux, HDG.get_convective_stabilisation_matrix", "dream/compressible/riemann_solver.py: Upwind, LaxFriedrich, Roe, HLL, HLLEM"]}
{"id": "C81", "title": "The result does not depend on the orientation of the coordinate system", "statement": "Rotating or mirroring the geometry, the boundary data and the initial flow gives the rotated or mirrored result. The numerical convective flux of the turned states through the turned facet is the turned flux, with each Riemann solver and in any dimension; the diffusive flux turns with the strain rate and the temperature gradient; outflow, inviscid wall, symmetry, isothermal wall, far field (with identities or Jacobians) and characteristic boundary conditions of both kinds and with all targets give the turned conditions when the given velocity or momentum is turned. So the residual of the turned problem at the turned flow, tested with the turned functions, is the residual of the problem, with all time schemes and sponge layers; the turned solution solves the turned problem, and the equation of the mixed unknown (strain rate, temperature gradient) turns as well. The viscous terms of the characteristic conditions turn up to one misplaced entry of the stress: they turn on vertical boundaries and at outflows with reflections at the axes and with half a turn, but an outflow through a vertical line and its quarter turn get different terms.", "quantifier": "all orthogonal matrices (rotations and reflections), settings, physical flow fields, meshes, quadrature rules, boundary conditions, sponge layers, time schemes and test functions; the plane for far field, characteristic conditions and mixed unknown (the only dimension in which they do not raise, or that is modelled)", "why_tests_cant": "An identity for all matrices, states, normals and fields; a test tries single angles and cannot tell rounding from a term that does not turn.", "anchors": ["dream/compressible/formulations/conservative.py: HDG.add_convection_form, HDG.add_diffusion_form, HDG.add_farfield_formulation, HDG.add_outflow_formulation, HDG.add_cbc_formulation, HDG.add_inviscid_wall_formulation, HDG.add_symmetry_formulation, HDG.add_isothermal_wall_formulation, HDG.add_sponge_layer_formulation, StrainHeat.add_mixed_form, StrainHeat.get_cbc_viscous_terms", "dream/compressible/riemann_solver.py: Upwind, LaxFriedrich, Roe, HLL, HLLEM", "dream/compressible/solver.py: CompressibleFlowSolver.get_convective_flux, get_diffusive_flux"]}
{"id": "C82", "title": "A symmetry boundary computes half of a symmetric flow", "statement": "In inviscid flow, putting a solution of the problem with a symmetry boundary together with its mirror image gives a solution of the problem on the doubled mesh, where the plane is not a boundary: the facet unknowns of the two sides agree on the plane, and the fluxes of the flow and its image balance there exactly for the state the symmetry condition asks for. It holds for each time step of implicit Euler and BDF2, with other boundary conditions and sponge layers mirrored. A discrete solution meets the symmetry condition at each quadrature point if the test functions reach its residual. It fails with the upwind Riemann solver unless the gas does not move towards the plane, and in viscous flow exactly when there is a shear stress along the plane or a flux of energy through it, about which the symmetry condition says nothing.", "quantifier": "all settings with LaxFriedrich or HLL in any dimension and Roe or HLLEM in the plane, flat symmetry boundaries, physical flows, meshes, rules, boundary conditions, layers, test spaces and time levels; refutations for all flows with the stated motion or shear", "why_tests_cant": "An equivalence of two discrete problems for all flows; a test compares two runs and cannot tell discretisation error from a wrong condition.", "anchors": ["dream/compressible/formulations/conservative.py: HDG.add_symmetry_formulation, HDG.add_inviscid_wall_formulation, HDG.add_convection_form, HDG.add_diffusion_form, HDG.get_convective_numerical_flux, HDG.get_diffusive_numerical_flux", "dream/compressible/riemann_solver.py: Upwind, LaxFriedrich, Roe, HLL, HLLEM", "dream/compressible/config.py: Symmetry"]}
{"id": "C83", "title": "The result does not depend on the scaling that is chosen", "statement": "The aerodynamic, acoustic and aeroacoustic scalings describe the same flow in other reference values: with velocities multiplied by the ratio of the far field speeds, pressures, temperatures and energies by its square, and time steps divided by it, far field states go over into each other, local Mach numbers, viscosities and pressure, drag and lift coefficients are the same, and a solution of the discrete problem in one scaling is a solution of the discrete problem in the other. This includes all Riemann solvers, inviscid and viscous flow, the mixed unknown, implicit Euler and BDF2, sponge layers with the same damping per time, and far field, outflow, wall, symmetry, isothermal and characteristic boundary conditions with the same data; the viscous terms of the characteristic conditions go over as well, for every mixed method and target. Only the local Reynolds number differs: it is multiplied by the ratio of the speeds.", "quantifier": "all pairs of scalings, Mach numbers > 0, heat capacity ratios > 1, viscosity laws, Riemann solvers, physical flows, meshes, rules, time levels, layers and test spaces; far field and characteristic conditions in the plane (in other dimensions they raise)", "why_tests_cant": "An equivalence of discrete problems for all flows and Mach numbers; a test compares two runs at one Mach number.", "anchors": ["dream/compressible/scaling.py: Aerodynamic, Acoustic, Aeroacoustic", "dream/compressible/solver.py: CompressibleFlowSolver.get_farfield_state, get_convective_flux, get_diffusive_flux, get_local_mach_number, get_local_reynolds_number, pressure_coefficient, drag_coefficient, lift_coefficient", "dream/compressible/formulations/conservative.py: HDG, StrainHeat", "dream/compressible/viscosity.py: Constant, Sutherland", "dream/time.py: ImplicitEuler, BDF2"]}
{"id": "C84", "title": "Pseudo time stepping finds the steady state", "statement": "A run of the pseudo time stepping ends with a result for every problem. With implicit Euler each iteration solves the linearized steady equations with the mass matrix over the current time step added; with BDF2 the difference of the last two iterates enters in addition. A start that is steady is returned unchanged and reported as converged at once. With implicit Euler an iteration that changes nothing has found a steady state; near a stable steady state all iterates stay near it and the squared distance shrinks at least by a fixed factor per iteration, for every damping in (0,1] and every growth of the time step, and convergence is reported after finitely many iterations. Not guaranteed: with BDF2 convergence may be reported at a state that is not steady; for small time steps convergence is reported after the first iteration wherever the run starts; the time step is never increased unless there are more iterations than increment_at (never with the default options).", "quantifier": "all numbers of unknowns, equations, mass matrices, criteria, dampings, time steps, growth options and iteration limits, with and without static condensation; convergence for starts near a steady state with decaying perturbations and a Lipschitz linearization", "why_tests_cant": "Statements about all equations and all sequences of iterations; a test runs one flow with one choice of options.", "anchors": ["dream/time.py: PseudoTimeSteppingConfig.start_solution_routine, solver_iteration_update, TimeSchemes.update_gridfunctions, ImplicitEuler, BDF2", "dream/solver.py: NonlinearSolver.solve, NewtonsMethod, DirectNonlinearSolver.solve_update_step"]}
{"id": "C85", "title": "Piecewise constant flows stay physical", "statement": "With elements of order 0, implicit Euler and the Lax-Friedrichs or HLL flux, a time step of any length on any mesh, with any boundary conditions and sponge layers with physical targets, keeps the density of every element positive for every fluid, and for inviscid fluids the pressure too, as long as the flow on the facets is physical. So a run that starts physical stays physical. Without domain boundaries mass and energy of the start bound density, energy and momentum of every element after every number of steps: the flow cannot blow up. For BDF2 the same holds if the weighted difference of the last two levels is physical; not guaranteed otherwise: two physical levels may give a cell with negative density.", "quantifier": "all dimensions, meshes, quadrature weights, boundary conditions, sponge layers, heat capacity ratios, time steps, numbers of steps and discrete solutions with physical facets", "why_tests_cant": "A statement about all discrete flows and all lengths of the steps; a test runs one flow.", "anchors": ["dream/compressible/formulations/conservative.py: HDG.add_convection_form, add_diffusion_form, add_sponge_layer_formulation, get_convective_numerical_flux", "dream/compressible/riemann_solver.py: LaxFriedrich, HLL", "dream/time.py: ImplicitEuler, BDF2, ImplicitSchemes.add_symbolic_temporal_forms"]}
{"id": "C86", "title": "A flow of uniform velocity and pressure only transports its density", "statement": "In an inviscid flow with uniform velocity and pressure the discrete equations of a time step (implicit Euler or BDF2, without boundaries or with residuals that vanish there) reduce to those of one transported scalar, the density: the flow with the new densities and unchanged velocity and pressure solves the step exactly if the densities solve the transport problem, so no pressure or velocity waves appear at density jumps. Along an inviscid wall the condition is met exactly by the density next to it. Gas at rest with any density jumps is kept exactly by Upwind, Roe, and HLLEM with threshold 0; Lax-Friedrichs, HLL and HLLEM with a positive threshold (the default is one) smear it.", "quantifier": "all meshes, quadrature rules exact for the test functions, velocities, pressures, density distributions, heat capacity ratios, time steps and histories; Upwind, Roe and HLLEM in two dimensions", "why_tests_cant": "A statement about all density distributions on all meshes; a test shows one contact on one mesh.", "anchors": ["dream/compressible/formulations/conservative.py: HDG.add_convection_form, get_convective_numerical_flux, add_inviscid_wall_formulation", "dream/compressible/riemann_solver.py: Upwind, LaxFriedrich, Roe, HLL, HLLEM", "dream/time.py: ImplicitEuler, BDF2"]}
{"id": "C87", "title": "What a condition contributes depends only on the regions that carry it", "statement": "If no two conditions are attached to exactly the same regions, the boundary terms of the discrete problem are the integrals of the residuals of all non-periodic boundary conditions over the boundaries that carry them, boundary by boundary, and the domain terms those of the sponge layers over their materials; the iteration order of the set of conditions has no influence. If no boundary has more than one condition, assigning a condition to several boundaries with one pattern or with one statement per boundary gives discrete problems with the same solutions, for every history of assignments. Neither is guaranteed when boundaries carry several conditions: which of two conditions with the same regions acts depends on the iteration order of a set, and a condition may act or not depending on how it was assigned.", "quantifier": "all histories of assignments, deletions and clears, region names without separator, iteration orders, quadrature rules, residuals and test functions", "why_tests_cant": "The iteration order of a set of objects depends on their addresses and changes from run to run; histories of assignments are unbounded.", "anchors": ["dream/mesh.py: Conditions.__setitem__, Conditions.to_pattern", "dream/compressible/formulations/conservative.py: HDG.add_boundary_conditions, HDG.add_domain_conditions"]}
{"id": "C88", "title": "A plane flow computes the same in three dimensions", "statement": "Extrude a plane mesh to layers of prisms and continue an inviscid plane flow, its previous time levels, walls, outflows and sponge layers constantly in the third direction, without velocity in that direction. Then, for the Lax-Friedrichs and the HLL flux, the discrete problem in three dimensions takes for every test function the value that the plane problem takes for the test function integrated over the height: fluxes through upright sides are those of the plane flow with zero vertical momentum, the pressure on the sides of the layers cancels the vertical part of the volume term, and symmetry conditions or inviscid walls below and above contribute nothing. So every solution of a time step of the plane problem, with implicit Euler or BDF2, gives a solution of the time step in three dimensions.", "quantifier": "all plane meshes, stacks of layers, states, quadrature rules, time steps, previous levels, sponge functions and test functions whose vertical derivative is integrated exactly", "why_tests_cant": "Meshes, orders and states are unbounded; a test compares one pair of computations up to tolerances of the solver.", "anchors": ["dream/compressible/formulations/conservative.py: HDG.add_convection_form, HDG.add_inviscid_wall_formulation, HDG.add_outflow_formulation, HDG.add_sponge_layer_formulation", "dream/compressible/riemann_solver.py: LaxFriedrich, HLL", "dream/compressible/solver.py: CompressibleFlowSolver.get_convective_flux"]}
{"id": "C89", "title": "A periodic boundary computes one period of a periodic flow", "statement": "Copy a domain with periodic boundaries several times and join the copies, repeating the flow, its previous time levels, the boundary conditions and the sponge layers in every copy. Then the discrete problem of the large domain takes for every test function the value, or raises the error, that the problem of one period takes for the sum of the test function over the copies. Facet functions with one value on every facet of the large domain sum up to facet functions with one value on every facet of one period, where periodic boundaries are identified, and every such function arises. So a flow solves a time step on one period exactly if its repetition solves the time step on all of them, and the repeated mixed unknown solves its defining equation on the large domain if it does on one period, for both mixed methods.", "quantifier": "all meshes, numbers and arrangements of copies, flow settings and fluxes in two and three dimensions, states, quadrature rules, time schemes, boundary terms, sponge layers and test functions", "why_tests_cant": "Meshes, numbers of periods, orders and states are unbounded; a test compares one pair of computations up to tolerances of the solver.", "anchors": ["dream/compressible/formulations/conservative.py: HDG.add_convection_form, HDG.add_diffusion_form, HDG.get_domain_boundary_mask, StrainHeat.add_mixed_form, Gradient.add_mixed_form", "dream/mesh.py: Periodic, BoundaryConditions.get_domain_boundaries", "dream/compressible/config.py: BCS"]}
{"id": "C90", "title": "VTK snapshots contain the region and the fields asked for", "statement": "Whatever options were assigned, opened, closed and written before: every snapshot of an opened VTK stream contains exactly the elements whose material the region option names, all elements if it is not set, each once and in the order of the mesh, and exactly the fields set, under their names. The options at the time of opening count; later assignments act only when the stream is opened again. A stream without fields cannot be opened, and one that is closed or was never opened cannot write.", "quantifier": "all meshes, material names, region patterns, fields and histories of assignments, openings, closings and snapshots", "why_tests_cant": "Meshes, patterns and histories are unbounded.", "anchors": ["dream/io.py: VTKStream.open, VTKStream.close, VTKStream.save_pre_time_routine, VTKStream.save_in_time_routine, VTKStream.save_post_time_routine"]}
{"id": "C91", "title": "Drawn scenes are refreshed", "statement": "After any sequence of drawings, some of which fail, redrawing refreshes exactly the scenes of the last drawing that succeeded, each once and in order of the fields, and then the window; without one it does nothing. A complete transient run refreshes them once per time point, a run in pseudo time once per iteration and once at the end. Scenes of earlier drawings are not refreshed any more, though they may still be shown.", "quantifier": "all sequences of drawings with any results of the library, all lists of time points and numbers of iterations", "why_tests_cant": "Sequences of calls and runs are unbounded.", "anchors": ["dream/io.py: IOConfiguration.draw, IOConfiguration.redraw", "dream/time.py: TransientConfig.start_solution_routine, PseudoTimeSteppingConfig.start_solution_routine"]}
{"id": "C92", "title": "The documentation reaches the settings file line by line", "statement": "A documentation given as a sequence of lines is stored as their text, which has exactly these lines; a text is stored as it is. The settings file has the lines of the documentation, without change and in order, between the acknowledgements and the configuration, and none if no documentation was set. Values that are neither a string nor a sequence of strings are rejected and keep the documentation stored before.", "quantifier": "all sequences of lines, texts, rejected values, and texts of the other parts of the file", "why_tests_cant": "Texts are unbounded.", "anchors": ["dream/solver.py: SolverConfiguration.set_solver_documentation", "dream/io.py: SettingsStream.save_to_txt"]}
{"id": "C93", "title": "A sensor stream opens the sensors that were added to it", "statement": "After any history of adding sensors by kind and name, of assignments of other values, removals, deletions of a kind and resets, a sensor stream opens, kind by kind, exactly the sensors that were added and neither replaced by one of the same kind and name nor taken away since, each once. Opening raises KeyError exactly if a kind was deleted and not assigned since. Restoring a stored configuration does not bring sensors back, since it assigns dictionaries and not names.", "quantifier": "all histories of statements on a sensor stream", "why_tests_cant": "Histories are unbounded.", "anchors": ["dream/io.py: sensor.__set__, SensorStream.point, SensorStream.domain, SensorStream.domain_L2, SensorStream.boundary, SensorStream.boundary_L2, SensorStream.open", "dream/config.py: UniqueConfiguration.clear, configuration.__delete__"]}
{"id": "C94", "title": "An assignment stores the value that was given, converted, or refuses it", "statement": "Options of whole numbers (orders, iteration limits, increments) store the whole part of every number, cut off towards zero; rates do so for numbers of one at least and raise ValueError for smaller ones; options of numbers store the number, and the convergence criterion only positive ones; the Mach, Reynolds and Prandtl numbers, the heat capacity ratio and the timer's step and time take the numbers allowed, raise ValueError for others, and remain the same parameter objects; whatever is no number raises TypeError; a refused value changes nothing, and an accepted one nothing but this option. Switches take every value and are off exactly for None, zero and everything empty. File names are stored as given and None as the name of the stream; the additional information of a solver takes dictionaries, None as an empty one, and raises ValueError for everything else. Hence any non-empty text, also 'off' or 'False', switches on, and an increment factor from one to below two is stored as one, with which the pseudo time step never grows. (Texts given for numbers are outside the model.)", "quantifier": "all configurations of the classes of the compressible solver, all options of these kinds, all values", "why_tests_cant": "The values and the states of the configuration are unbounded; conversions go wrong at particular values (fractions, negative numbers, truth values, empty containers).", "anchors": ["dream/config.py: configuration.__set__, parameter.__set__", "dream/solver.py: BonusIntegrationOrder, Compile, Optimizations, NewtonsMethod.damping_factor, NonlinearSolver.max_iterations, NonlinearSolver.convergence_criterion, FiniteElementMethod.order, SolverConfiguration.info", "dream/time.py: Timer.step, Timer.t, PseudoTimeSteppingConfig", "dream/io.py: Stream.filename, SettingsStream, VTKStream.rate, GridfunctionStream.rate, GridfunctionStream.time_level_rate", "dream/compressible/solver.py: mach_number, reynolds_number, prandtl_number"]}
