# Formal model of dream_solver — design

Source: `/repo` (plederer/dream_solver, pinned), read as text only.
Prover: Rocq/Coq 8.16.1.  Model and proofs: `/verif/rocq/theories`.

## 1. Method

* Each Python function that is modelled becomes one Gallina function (or one
  relation for a generator) that follows it branch by branch.  Every definition
  carries a comment with file and line numbers; simplifications are stated there.
* Python exceptions are values: `Ok v | Err e` (`Base.v`).
* Model files (`M_*.v`) contain no proofs. Specification files (`S_*.v`)
  contain the independent specification vocabulary (never calling the model).
  Lemma files (`L_*.v`) contain shared lemmas; `P_*.v` files contain the final theorems with
  `Print Assumptions`, and examples that show non-trivial instances of the hypotheses.
* If the code violates a property, the model reproduces the violation, a
  theorem `..._refuted` proves it, and the strongest true restriction is
  proved with the restriction visible in the statement. These are listed in section 5.
* Floating point numbers are idealised as exact rationals (`Q`) or reals (`R`), except in C74, where the timer
  computes with the IEEE doubles of Flocq.
* NGSolve is outside the model: coefficient functions are modelled by their
  point values (real scalars, vectors, matrices); finite element spaces, assembly and linear
  solves appear only as arbitrary (universally quantified) functions.

## 2. Plan per property

| id | what is modelled | how it is proved |
|----|------------------|------------------|
| C01 | `Timer.start` over Q with Python round-half-even | round of an integer ratio is exact; induction on the range |
| C02 | `_set_digit` on decimals, `round(x, digit)` | lattice argument: multiples of 10^-d are fixed by rounding; counterexample for start with more digits |
| C03 | `Timer.interval` setter on a state, history fold | invariant by induction over assignments |
| C04 | `initialize_level_gridfunctions`, `set_initial_conditions`, `update_gridfunctions` over named levels | induction over steps |
| C05 | the derivative / level / step formulas over R | ring/field; polynomials of degree 1/2 |
| C06 | `solver_iteration_update` | induction over iterations; geometric growth |
| C07 | `NonlinearSolver.solve` as a trace of events with oracle update step | induction on the loop |
| C08 | `TransientConfig.start_solution_routine` as event trace | induction on timer values |
| C09-C11 | pre/in/post methods of the three streams folded over a run | set/list characterisation of the written labels |
| C12, C13 | file store as map from names to states; save and load routines | store lemmas, injectivity of file names |
| C14, C15 | `IOConfiguration.open/save_pre/close`, call arity, csv writers with file handles | case analysis; handle invariant |
| C16 | header and measurement construction | list lemma: pointwise alignment |
| C17 | `path.__set__` on lists of path components | prefix lemma; termination |
| C18 | `stream.__set__/__get__` | history induction |
| C19 | logger handler list with `to_terminal`, `to_file`, `__del__` | invariant over histories and streams |
| C20, C21 | `configuration.__set__`, `parameter.__set__/reset` on a heap | history induction |
| C22, C23 | `unique/interface.__set__`, recursion on configuration trees, registry with class hierarchy | structural induction |
| C24 | `__init_subclass__` registration | invariant over sequences of definitions |
| C25, C26 | `to_tree`, `update` on trees with dotted keys | induction over trees / key lists; refutations |
| C27, C28 | `ngsdict`, `quantity`, `get_fields` | history induction, list lemmas |
| C29-C32 | `Conditions` and subclasses | history induction |
| C33 | `PSpongeLayer` setters, `get_pairs_of_polynomial_orders` | invariant, list lemma |
| C34 | facet dof bit arrays with strided assignment | bit-level lemma |
| C35 | `GridDeformation` setters | history induction for non-None, refutation |
| C36 | point and element lists of `get_cylinder_omesh` | counting of directed edges for all sizes |
| C37-C40 | `bla`, `BufferCoord`, `SpongeFunction`, `GridMapping` over R | real analysis, convergence of the fixpoint iteration |
| C41 | all branches of the state equations with optional fields over R | case analysis over all subsets + field |
| C42 | gradient branches | Coquelicot derivatives |
| C43-C47 | 4x4 matrices over R as functions of the state | field; spectral identities |
| C48, C49, C53, C54 | farfield state, scalings, viscosity, isentropic density | field, Rpower |
| C50, C51 | boundary states, strain, stress, heat flux | ring/field |
| C52 | `relaxation_factor`, `get_relaxation_matrix` | list lemma, refutations |
| C55, C65 | dispatch of conditions, whole set-up | case analysis over the configured problem, set order as parameter |
| C56 | geometry of the ring mesh | signed areas over R |
| C57 | fields of the conservative unknowns and back | round trip over R |
| C58 | characteristic boundary condition | diagonalisation, linear algebra |
| C59 | update step with and without static condensation | Schur complement over finite sums |
| C60-C62 | weak forms as quadrature sums | test with constants, tight walls, uniform flow |
| C63, C64 | mixed forms, Jacobians of the viscous flux | variational identity; Coquelicot derivatives |
| C66, C67 | wave amplitudes, aerodynamic coefficients | derivatives along lines, finite sums over surfaces |
| C68 | sponge layers | relaxation towards the target over arbitrary histories |
| C69 | sensors | finite sums over regions |
| C70, C71 | layer functions, initial values | least squares projections on abstract polynomial spaces; convex cone of physical states |
| C72 | stability and order of time stepping | energy estimates by induction over the steps, Taylor bounds of C05 |
| C73 | files of all streams | invariants over histories of saves, loads and reconfigurations of a file system |
| C74 | the timer in IEEE doubles (Flocq), CPython's `round` and `.16f` | error bounds of each rounding, then rounding to the nearest integer or decimal |
| C75 | the shapes of `get_cylinder_mesh` as sets of points | set algebra, monotone and convex powers |
| C76 | restart of a killed run from its files, memory of the scheme, labels in floats | crash points as prefixes of the writes, simulation with the uninterrupted run |
| C77 | derivative of the whole variational problem at a uniform flow | derivatives of numerical flux and boundary terms in characteristic amplitudes; symmetriser of the Jacobians as a test function; energy estimate, G-stability of BDF2 |
| C78 | texts of the CSV files: writer, text file, modes of opening, kills | a separate reader; round trip by induction over cells and rows; any prefix of the text; composition with C11 and C16 |
| C79 | convergence of Newton's method | mean value theorem along the line to the solution, induction over the iterations |
| C80 | states on the facets between elements | decomposition into waves seen from both sides; intermediate value theorem for existence |
| C81 | rotated and mirrored problems | orthogonal matrices acting on states, fluxes and conditions; waves up to the sense of the vorticity wave; residual by pointwise equality |
| C82 | symmetry boundary is half of a symmetric flow | doubled mesh, reflection as an orthogonal matrix of C81; residual of the whole split into two residuals of the half; flux balance on the plane |
| C83 | the result does not depend on the scaling | the same flow in other reference values; each flux, boundary vector and form is multiplied by a weight per component, which moves to the test function |
| C84 | pseudo time stepping finds the steady state | the iterates are those of Newton's method with shifted matrix (run of the loop = recursion of iterates); energy argument for the decay of the distance |
| C85 | piecewise constant flows stay physical | physical states as a cone cut out by linear quantities (density, energy seen by observers); splitting of the numerical flux shows that an element without such a quantity can only gain it; induction over the steps |
| C86 | contacts are transported, not disturbed | weak form of a separate scalar transport problem; numerical flux of parcels as mass flux times what a unit of mass carries plus pressure, the latter cancelled by the divergence theorem |
| C87 | terms depend only on which region carries what | sum over regions of the integrals of the conditions found there; refinement of pattern view and term dictionary to that sum; relation between a history and the one with single names |
| C88 | plane flows in three dimensions | prisms over a plane mesh as products of quadrature rules; test functions integrated over the height; the form in three dimensions equals the plane form |
| C89 | periodic boundaries | copies of a domain as unrolled quadrature rules; test functions summed over the copies; the form of all copies equals the form of one period |
| C90 | contents of VTK snapshots | refinement over histories of option assignments, openings and closings; loop over the bits of the elements |
| C91 | scenes | last successful drawing; handler of the events of runs |
| C92 | documentation in the settings file | lines of a text; joining and splitting are inverse |
| C93 | sensors of a stream | refinement over histories: the last assignment under a kind and a name that was not taken away |
| C94 | values of options | case analysis over the class table: stored value or exception for every value, frame condition |

## 3. Trusted base

* Coq's kernel (8.16.1) and the standard library.
* The axioms that `Print Assumptions` lists, per theorem, in section 6: only
  those of the standard library's classical reals, functional extensionality and excluded middle. No axiom of
  another library and none of our own.
* The reading of Python semantics recorded in the comments of the model files: dictionaries keep insertion order;
  sets are traversed in an arbitrary order (a parameter of the theorems); `all((...))` on coefficient functions tests
  for `None` only; `round` is round-half-even; generators are event traces.
* Numbers are exact: rationals for times and orders, reals for the physics. Rounding errors are modelled for the timer only
  (C74: Flocq's definition of IEEE doubles is part of the statement; `round`, literals and `.16f` are CPython's correctly rounded conversions.
  The model agrees with Python's own floats on 250 random runs; that was a test, not part of the proof). Division by zero is total in Coq; theorems that
  divide carry the hypothesis that excludes it.
* What is assumed of NGSolve and netgen:
  * a coefficient function is represented by its value at a point; a matrix indexed with one
    number gives the entries row by row (`M_Viscous.flat`);
  * integrals are quadrature sums, every integral with its own rule; functions of element and facet spaces are given by
    their values at the points (`M_Weak`); the normal of the mesh points out of the element, on a boundary out of the flow;
  * `Integrate` yields one value per component, without a region it integrates over the elements, not the boundary; region patterns `a|b` select the regions named `a` and `b`
    (names are assumed to contain no characters that are special in regular expressions);
  * spaces of discontinuous polynomials on elements or facets contain the constants and grow with the order, the quadrature rules have
    positive weights, integrate products of these polynomials exactly and determine them (`S_Project.resolves`); `Compress` removes
    unknowns; `gfu.Set` is the least squares projection; `MaterialCF` is zero where nothing is given (C70, C71);
  * the mass integral is a quadrature sum with nonnegative weights; the spatial form of a step is an arbitrary dissipative form in the
    element unknowns (facet unknowns eliminated). That the compressible forms are dissipative is a hypothesis, not proved (C72);
  * files and folders behave as in `M_Files` (one process, no permissions or full disks, no links; pickling and yaml dumps succeed;
    `gfu.Save` fails like `open`; other OS errors than a missing file are not told apart); VTK files are written by NGSolve and not modelled (C73);
  * a kill leaves the files written so far, possibly one incomplete file of a later time point; the memory of a run is its grid functions and
    the clock, the solve is a function of them, and the consumer of a run changes no grid function (C76);
  * CSV: the dialect 'excel' of Python's module csv, `open` with its modes and its translation of line feeds as documented, a kill leaves a prefix of the
    bytes handed over; `read_csv` takes four rows as names, the first column as index, pads short rows and rejects long ones; it does not
    change names and its conversion of numbers is left out (C78);
  * the components of the unknown are from one space, facet functions on different facets are independent and discontinuous, and the rules
    integrate the product rule for products of two components exactly (C77);
  * on a turned mesh the quadrature points and weights are the same, normals turn and vectors of shape functions turn into vectors of the space (C81);
  * facet unknowns are numbered facet by facet (C34); point numbers of a netgen mesh count from one in the order of creation (C36);
  * shapes of the geometry kernel are sets of points; differences and products keep name and size of the faces of the first operand, gluing keeps
    all faces in order, faces are numbered in that order (C75);
  * the operators of static condensation satisfy the equations of `S_Condense` (C59); linear solves are exact;
  * `AssembleLinearization` is the derivative of `Apply` in the free unknowns (hypothesis of C79, `S_Newton.regular_solution`);
  * shape mismatches raise: `CF(None)` and subtraction of different shapes (`M_Formulation.cf_sub`), assigning to
    a space of another size (`M_Setup.fits`), a relaxation matrix of wrong size. Other shape errors are not represented;
  * set-up is evaluated on the values of the unknowns at a sample point instead of symbolic proxies (`M_Setup`).

## 4. What is modelled, and what is not

| code | model | properties |
|------|-------|------------|
| `dream/config.py` (all but docstring helpers) | `M_Config`, `M_Heap`, `M_Registry`, `M_Fields`, `M_Classes` | C20–C28, C94 |
| `dream/time.py` | `M_Timer`, `M_Float`, `M_Scheme`, `M_Run`, `M_March`, `M_Restart`, `M_Pseudo`, `M_Reruns` | C01–C06, C08, C72, C74, C76, C84 |
| `dream/io.py` | `M_IO`, `M_Context`, `M_Header`, `M_Path`, `M_Stream`, `M_Sensor`, `M_Files`, `M_Restart`, `M_Csv`, `M_Show`, `M_Registered` | C09–C19, C69, C73, C76, C78, C90–C93 |
| `dream/solver.py` (nonlinear solvers, set-up, field selection) | `M_Solve`, `M_Condense`, `M_Setup`, `M_Fields` | C07, C28, C59, C65, C79 |
| `dream/mesh.py` (buffers, mappings, conditions, layers, ring mesh, cylinder geometry) | `M_Buffer`, `M_Conditions`, `M_Layers`, `M_Omesh`, `M_Cylinder`, `M_Project` | C29–C39, C55, C56, C70, C75 |
| `dream/bla.py` | `M_Bla` | C40 |
| `dream/compressible/eos.py`, `solver.py`, `viscosity.py`, `scaling.py`, `riemann_solver.py` | `M_Flow` | C41–C49, C51, C53, C54, C57, C66, C67 |
| `dream/compressible/config.py` (conditions, reference values) | `M_Conditions`, `M_Fields`, `M_Formulation` | C52, C54, C55 |
| `dream/compressible/formulations/conservative.py` | `M_Formulation`, `M_Weak`, `M_Mixed`, `M_Viscous`, `M_Setup`, `M_Project`, `M_Regions` | C28, C50–C52, C58, C60–C65, C68, C71, C77, C80, C81, C82, C83, C85–C89 |

Not modelled: finite element assembly and shape functions, factorisations, netgen meshing
(and with it the edge numbers `get_cylinder_mesh` relies on for boundary names), drawing itself, pickling formats, yaml, pandas, the file system beyond a map from names to contents, docstrings.

## 5. Findings

Each is a theorem ending in `_refuted` or part of the theorem named.

Time and runs
1. The end of the interval is overshot when it is no multiple of the step (`c01_end_overshoot_refuted`); labels of different
   time points collide when the start has more decimals than the step (`c02_labels_collide_refuted`).
2. The first BDF2 step is inconsistent (`c05_bdf2_startup_refuted`), and an error of first order remains for ever (`c72_bdf2_startup_refuted`,
   `c72_bdf2_second_order_refuted`). BDF2 supposes equal steps: neither is the first step after the step size was changed (`c05_bdf2_changed_step_refuted`).
3. Pseudo time stepping: `increment_at = 0` raises, `increment_factor = 0` makes the step zero (`c06_zero_settings_refuted`). The enlarged step stays in the timer,
   so a second solve does not start with the step that was set (`c06_restart_refuted`).
4. A transient run without time points raises UnboundLocalError (`c08_empty_timer_refuted`); a stationary run always raises, since
   it calls an undefined method (`c08_stationary_refuted`). Divergence does not stop a transient run.

Output
5. The final time levels are not always written (`c10_final_levels_refuted`); loading with rate > 1 asks for files
   that were not written (`c12_rate_above_one_refuted`).
6. An active mesh or settings stream makes every solve fail (`c14_single_streams_refuted`).
7. Sensors of equal name share one file, and a failing open leaks files (`c15_*_refuted`); rows of stationary runs lack the time cell
   and small matrix fields are rejected (`c16_*_refuted`). A boundary sensor without regions integrates over the domain under a label that names all
   boundaries (`c69_whole_boundary_refuted`); a sensor given a sequence of names none of which exists is opened with warnings, and the first
   measurement raises (`c69_no_region_refuted`).
8. The path setter does not return if another folder is stored at the old location (`c17_shared_folder_refuted`);
   a new absolute root leaves the other folders behind (`c17_absolute_assignment`).
   Mesh and settings of equal name in one folder replace each other, names with a new folder cannot be saved, and loading creates missing
   folders (`c73_*_refuted`).
9. A log file that cannot be opened removes the previous handler while the option says true (`c19_failed_open_refuted`).

Configuration
10. A rejected dictionary is applied up to the rejected entry (`c20_dictionary_refuted`); an instance stored in
    two solvers follows the second (`c22_shared_instance_refuted`).
11. Registry: keywords are registered in lower case but looked up as written; inherited names and aliases are registered
    twice and raise; a failed registration leaves a name behind (`c24_*_refuted`).
12. Settings with the io option cannot be restored: the log stream's name differs from its keyword, and activated streams are dropped
    (`c25_*_refuted`, `c26_activation_refuted`); a dotted key before its parent raises (`c26_keyword_last_raises`).
13. Fields can be written but not read or deleted by symbol; redeclared symbols disagree (`c27_*_refuted`); default fields cannot be
    deselected by name (`c28_deselect_refuted`).

Mesh and conditions
14. Two conditions with the same regions: one is lost (`c31_*_refuted`), for instance a sponge layer on exactly the domains of the initial
    condition for some traversal orders (`c65_layer_refuted`).
15. PML, force, perturbation and grid deformation conditions always fail in the set-up and polynomial sponge layers are treated as plain ones
    (`c55_*_refuted`, `c65_limits`); a boundary with a periodic and another condition has a term but is not masked (`c55_periodic_mixed_refuted`).
16. Grid deformations: reset coordinates keep the old mapping, new objects and changed dimensions have a wrong function, no overall
    deformation without layers (`c35_*_refuted`); polar mappings divide by zero on the axes (`c39_polar_axis_refuted`).
17. Ring mesh: the closing outer boundary element is reversed, thin rings have inverted triangles (`c56_*_refuted`);
    zero radial or polar layers raise (`c36_result`).

Flow equations
18. The speed of sound from the specific inner energy is too small by the factor gamma (`c41_speed_of_sound_refuted`); the specific
    enthalpy of density, energy and pressure raises TypeError (`c41_specific_enthalpy`).
19. Characteristic matrices in three dimensions *return* an exception object (`c43_raises`).
20. Incoming and outgoing identities do not add up to the identity if a wave stands still (`c46_complete_refuted`); so a uniform flow
    along a far field or characteristic boundary does not satisfy the default condition (`c50_farfield_refuted`, `c58_uniform`).
21. The documented aeroacoustic far field temperature and pressure differ from those returned (`c48_documented_refuted`).
22. The strain rate has the three-dimensional trace also in two dimensions (`c51_trace_refuted`); the gradient method never gives a diffusive flux
    (`c51_gradient_method_refuted`).
23. Relaxation factors: keys of a dictionary are ignored, a fourth factor in two dimensions is lost (`c52_*_refuted`), other types
    are accepted silently (`c52_other`).
24. Mass inflow needs the kinetic energy although it is determined (`c58_mass_inflow_refuted`).
25. Adiabatic walls can never be set up (`c50_adiabatic_wall`, `c65_limits`); neither can viscous flow, far field or characteristic
    conditions in three dimensions, or characteristic conditions without time stepping (`c65_limits`); a plain dictionary as initial state
    raises AttributeError (`c65_dictionary_refuted`).
26. With the upwind flux walls are not tight (`c61_upwind_refuted`).
27. The convergence criterion can vanish for any residual, and static condensation changes the reported error (`c59_*_refuted`).
28. The diffusive Jacobians ignore the temperature dependence of the viscosity; the viscous terms of the characteristic condition use
    a wrong entry (`c64_*_refuted`) and are silently zero for the gradient method (`c64_methods`).
29. Drag has the sign of the force on the flow (`c67_sign_refuted`); the local Reynolds number of the far field is not the configured one
    (`c67_reynolds_refuted`).
30. Layer functions of order one or more leave the bounds of the given function and may be negative, so that the layer amplifies
    (`c70_bounds_refuted`); likewise initial densities (`c71_physical_refuted`). A domain without initial condition silently starts with
    density zero (`c71_missing_refuted`).
31. Timer steps above one half may get sixteen decimals instead of their own (0.56, 1.1), so that labels and file names read
    3.3000000000000003 (`c74_digits_refuted`, `c74_labels_refuted`); NaN passes the interval checks (`c74_interval_nan_refuted`).
32. `get_cylinder_mesh` hands the thicknesses to the transition circles in reverse order (`c75_sizes_refuted`), leaves the domain upstream of
    the wake unnamed for curved layers without a sponge (`c75_unnamed_refuted`) and does not check that the transition ends inside the
    far field (`c75_order_refuted`).
33. Restarts: the first file of a run is named after the clock before the run, 0.0 in a fresh configuration, so a restarted run destroys the
    saved initial state (`c76_initial_refuted`); counters start again at 0, so rates above one save other time points
    (`c76_schedule_refuted`); the state file alone does not restart BDF2 (`c76_bdf2_state_refuted`, `c76_state_only_refuted`); the
    times handed to the solver and the clock after a run are not rounded (`c76_times_refuted`, `c76_rerun_name_refuted`).
34. Sensor files: a second run in the default mode 'w' destroys the rows of the first (`c78_history`), so a restarted run needs mode 'a'; on a new
    file mode 'a' writes no header and `load_as_dataframe` takes four rows of data for one (`c78_append_new_refuted`), as do spellings like 'wt'
    (`c78_header_only_w`); rows are not flushed, so a kill tears a row, which can look complete (`c78_torn_refuted`) and is glued to the first
    row appended later (`c78_glued_refuted`), which makes the whole file unreadable if there are columns at all (`c78_glued_lost_refuted`); mode 'r+' writes over the beginning and leaves the rest (`c78_overwrite`); the file is opened without `newline=''` (`c78_windows_refuted`).
35. Newton's method has no line search: outside the neighbourhood of C79 it can cycle for ever (`c79_far_refuted`), the only remedies are the damping
    factor, which makes the convergence linear (`c79_damped`), and a better starting state.
36. Upwind, Roe and HLLEM with `theta_0 <= 0` do not determine the density on a facet that the flow does not cross: for a flow along the facets, e.g. a
    fluid at rest, the residual does not depend on the facet densities (`c80_contact_refuted`, `c80_free_density_refuted`), so its linearization is
    singular and the direct solve of the condensed system has no unique solution. Lax-Friedrichs (the default), HLL and HLLEM with a positive threshold
    do determine it (`c80_unique`).
37. `Symmetry` gives half of a symmetric flow only with LaxFriedrich, Roe, HLL and HLLEM (`c82_half`); with Upwind the fluxes of flow and image do not balance
   as soon as the gas inside moves towards the plane (`c82_upwind_refuted`).
38. `Symmetry` is the inviscid wall, also in viscous flow: it does not ask for vanishing shear stress and heat flux, which symmetric flow has on its plane. The diffusive
   fluxes of flow and image then do not balance (`c82_viscous_refuted`, exact condition `c82_viscous`).
39. The local Reynolds number (`get_local_reynolds_number`) is the only evaluated number that depends on the chosen scaling: density times speed over viscosity in
   dimensionless values lacks the reference Reynolds number (`c83_local_reynolds_refuted`; with that factor it is the same in all scalings).
40. The viscous terms of the characteristic conditions depend on the orientation of the coordinate system (`c81_viscous_refuted`, `c81_viscous_mirror_refuted`; what does
   not turn is exactly the misplaced stress of finding 28, `c81_viscous_terms`).
41. Pseudo time stepping: with the default options (`max_iterations = 10`, `increment_at = 10`) the time step is never increased (`c84_step_refuted`); the reported
   convergence compares the product of correction and residual with the criterion, which small time steps satisfy after the first iteration wherever the run starts (`c84_report_refuted`);
   with BDF2 convergence may be reported at a state that is not steady (`c84_bdf2_refuted`).
42. BDF2 has no such guarantee as implicit Euler for elements of order 0: from two physical levels it may reach a cell with negative density although all facets are physical (`c85_bdf2_refuted`); likewise in a sponge layer (`c68_bdf2_positive_refuted`), also in a run from rest levels if dt w is large (`c68_bdf2_overshoot_refuted`; for dt w up to 1/2 it stays physical, `c68_bdf2_run`).
43. HLLEM keeps a resting density jump only with threshold 0; with the default `theta_0` of 1e-8 it smears it, if slowly, like Lax-Friedrichs and HLL (`c86_still`, `c86_smears`).
44. Of two conditions on the same boundaries the one that comes last in the iteration order of a set of objects acts, so the problem that is solved may change from run to run (`c87_same_regions_refuted`); of conditions that overlap, what acts depends on whether the boundaries were named together (`c87_together_refuted`). A warning is logged for boundaries with several conditions.
45. A domain or boundary sensor whose fields have one component in total, and every L2 sensor of one field, opens and writes its header, and then every measurement raises ValueError: NGSolve integrates to a plain number, of which `np.concatenate` makes nothing (`c69_single_refuted`). Point sensors use `np.atleast_1d` and work.
46. Drawing fields a second time forgets the scenes of the first, which stay visible in a notebook but are never refreshed again (`c91_earlier_refuted`).
47. Restoring a stored configuration loses its sensors: they are stored as dictionaries, and assigning a dictionary adds no sensor and raises nothing (`c93_restore_refuted`).
48. Any non-empty text switches an option on, also 'off' (`c94_words_refuted`); an `increment_factor` from one to below two, such as 1.5, is cut off to one, so the pseudo time step never grows (`c94_factor_refuted`).
49. Without theorem: the linear form `lf` is never assembled, so right-hand side terms added to it would have no effect; the base Riemann solver's method returns instead of raising;
    the HLLEM docstring omits a factor.

## 6. Assumption summary

Generated by `tools/assumptions.py --design`.

### Closed under the global context (238 theorems)

c01_end_overshoot_refuted, c01_timer_last_point_close, c01_timer_visits_every_point_once, c02_digits_follow_step, c02_digits_least, c02_label_error, c02_labels_are_the_times, c02_labels_collide_refuted, c02_listed, c03_interval_always_valid, c03_rejected_exactly_when_unacceptable, c04_bdf2, c04_implicit_euler, c04_levels_are_last_solutions, c04_pseudo_levels, c06_closed_form, c06_constant_above_maximum, c06_monotone_bounded, c06_reaches_maximum, c06_restart_refuted, c06_solves, c06_zero_settings_refuted, c08_complete_run, c08_consumer_sees_labels, c08_empty_timer_refuted, c08_interrupted_run, c08_pseudo_complete_run, c08_pseudo_interrupted_run, c08_stationary_refuted, c09_due_points, c09_interrupted, c09_no_gap, c09_rates, c09_vtk_schedule, c10_final_levels_refuted, c10_interrupted, c10_level_files, c10_state_files, c11_interrupted, c11_no_csv_no_rows, c11_sensor_schedule, c12_due_states_load, c12_rate_above_one_refuted, c12_rate_one_replays, c13_levels_after_run, c13_levels_round_trip, c14_incomplete_setup_rejected, c14_pre_routines_run, c14_single_streams_refuted, c15_failed_open_refuted, c15_files_closed_and_rows_routed, c15_same_name_refuted, c16_L2_header_aligned, c16_header_aligned, c16_small_matrices_refuted, c16_stationary_rows_refuted, c16_transient_rows_fit, c17_absolute_assignment, c17_defaults, c17_relative_assignment, c17_shared_folder_refuted, c18_assignment, c18_position, c19_failed_open_refuted, c19_handlers, c19_level, c19_options, c20_accepted_value, c20_defaults_accepted, c20_dictionary_refuted, c20_only_assigned_option, c20_rejected_unchanged, c20_rejected_value, c20_settings_valid, c20_stored_values_accepted, c21_identity_kept, c21_last_value, c21_reset_creates, c21_statements_below, c22_default, c22_history, c22_objects, c22_pass_ends, c22_shared_instance_refuted, c23_current_kept, c23_fresh_instance, c23_unique_keyword, c23_unknown_keyword, c24_all_words_registered, c24_case_refuted, c24_duplicates_raise, c24_failed_statement_refuted, c24_inherited_aliases_refuted, c24_inherited_name_refuted, c24_never_overwritten, c24_only_what_was_asked, c24_unambiguous, c25_log_refuted, c25_round_trip, c25_solver, c25_stream_refuted, c25_tree_complete, c26_activation_refuted, c26_dotted_is_nested, c26_keyword_last_raises, c26_order, c26_script, c26_unknown_ignored, c27_absent, c27_canonical_keys, c27_flow_names, c27_last_write, c27_none_is_noop, c27_others_unaffected, c27_read_by_symbol_refuted, c27_redeclared_symbol_refuted, c27_subclass_tables, c27_tables_proper, c28_defaults, c28_deselect_refuted, c28_fields, c28_reported, c29_attached, c29_history, c29_mesh, c29_new_object, c29_pattern_names, c29_rejected, c30_domain_boundaries, c30_get_region, c30_has_condition, c30_layers, c30_pattern, c30_periodic_boundaries, c31_complete, c31_lost_condition_refuted, c31_members, c31_same_regions_refuted, c31_sound, c32_periodic_check, c33_assignment, c33_orders_admissible, c33_pairs, c33_pairs_assignable, c33_statements, c34_elements, c34_facets, c34_raises, c35_components, c35_dim_refuted, c35_fresh_refuted, c35_function, c35_overall_refuted, c35_rejected_unchanged, c35_reset_refuted, c36_conforming, c36_counts, c36_result, c36_triangles, c40_as_matrix, c40_as_scalar, c52_dictionary_refuted, c52_factors, c52_few_factors, c52_other, c54_dimensionful, c55_boundary_errors, c55_boundary_terms, c55_domain_options_refuted, c55_domain_terms, c55_masked_covered, c55_options_supported, c55_periodic_mixed_refuted, c55_psponge_refuted, c56_closing_segment_refuted, c69_opens, c69_points, c69_reopen, c69_warnings, c73_apart, c73_clash_refuted, c73_frame, c73_kinds, c73_loading_refuted, c73_log_appends, c73_mesh_round_trip, c73_no_clash, c73_saved, c73_settings_round_trip, c73_state_round_trip, c73_subfolder_refuted, c73_succeeds, c74_digits_follow_step, c76_bdf2_state_refuted, c76_complete, c76_euler_state, c76_initial_refuted, c76_loaded, c76_schedule_refuted, c76_state_only_refuted, c78_append_new_refuted, c78_distinct, c78_frame, c78_frame_L2, c78_glued_lost_refuted, c78_glued_refuted, c78_header_only_w, c78_history, c78_killed, c78_killed_append, c78_long_row_refuted, c78_modes, c78_overwrite, c78_resumed, c78_round_trip, c78_short_rows, c78_torn_refuted, c78_windows_refuted, c90_closed, c90_snapshot, c91_earlier_refuted, c91_pseudo_run, c91_redraw, c91_run, c92_file, c92_lines, c92_rejected, c93_fails, c93_opened, c93_restore_refuted, c94_factor_refuted, c94_integers, c94_names, c94_numbers, c94_parameters, c94_rates, c94_switches, c94_words_refuted

### `ClassicalDedekindReals.sig_forall_dec` (6 theorems)

c40_diagonal, c40_symmetric, c40_symmetric_raises, c40_trace, c40_trace_diagonal, c70_raises

### `ClassicalDedekindReals.sig_forall_dec`, `FunctionalExtensionality.functional_extensionality_dep` (91 theorems)

c05_bdf2_changed_step_refuted, c05_bdf2_exact_for_quadratic, c05_bdf2_level_and_step, c05_bdf2_startup_refuted, c05_implicit_euler_exact_for_linear, c05_implicit_euler_level_and_step, c37_clamped, c37_monotone, c37_normalised, c38_type_checked, c39_deformation, c39_linear, c39_none, c40_abs, c40_fixpoint, c40_interval, c40_max, c40_min, c40_other_raises, c40_outer, c40_skew, c40_trace_outer, c41_specific_enthalpy, c42_determined, c43_conservative_characteristic, c43_conservative_primitive, c43_primitive_characteristic, c43_raises, c44_eigenvectors, c44_primitive, c44_raises, c46_complete, c46_complete_refuted, c46_identities, c46_jacobians, c46_raises, c50_slip, c51_known, c51_strain, c51_strain_heat_method, c51_trace_refuted, c52_four_factors_refuted, c52_grcbc, c52_missing, c52_nscbc, c57_physical, c57_unique, c58_between, c59_condensed, c59_definite, c59_full, c59_same_correction, c63_gradient, c63_strain, c66_raises, c66_split, c68_bdf2_overshoot_refuted, c68_bdf2_positive, c68_bdf2_positive_refuted, c68_converges, c68_positive, c69_no_region_refuted, c69_pattern, c69_pattern_sums, c69_sequence, c69_whole_boundary_refuted, c69_whole_domain, c70_bounds, c70_bounds_refuted, c70_exact, c70_function, c70_order, c70_unique, c71_content, c71_exact, c71_interface, c71_missing, c71_missing_refuted, c71_physical, c71_physical_refuted, c81_gradients, c83_back, c83_gradients, c87_boundary, c87_order, c87_same_regions_refuted, c87_sponges, c87_together_refuted, c88_sponge, c89_gradient, c89_spaces

### `ClassicalDedekindReals.sig_forall_dec`, `ClassicalDedekindReals.sig_not_dec`, `FunctionalExtensionality.functional_extensionality_dep` (100 theorems)

c07_solve_meets_specification, c37_coordinates, c39_polar, c39_polar_axis_refuted, c40_unit_vector, c41_determined, c41_path_independent, c41_speed_of_sound, c41_speed_of_sound_refuted, c41_values, c42_gradients, c44_conservative, c44_transformed, c45_flux, c45_flux_determined, c47_conservative, c47_consistent, c47_exists, c47_mean_trace, c47_opposite, c47_order, c47_scalar, c47_stabilisation, c48_documented, c48_documented_refuted, c48_raises, c48_state, c50_farfield, c50_farfield_dimension, c50_farfield_refuted, c50_farfield_supersonic, c50_farfield_uniform, c50_inviscid_wall, c50_isothermal_wall, c50_outflow, c57_fields, c57_gradients, c57_total, c57_vector, c59_criterion_refuted, c59_error_refuted, c59_linear, c61_slip, c61_slip_waves, c61_upwind_refuted, c62_convection, c63_identity, c63_mean, c63_raises, c63_uniform, c63_unique, c66_amplitudes, c66_relations, c67_pressure_coefficient, c68_bdf2_converges, c68_raises, c68_residual, c69_l2, c69_l2_norm, c69_single_refuted, c71_uniform, c71_vector, c72_bdf2_stable, c72_euler_stable, c77_energy, c77_rates, c80_contact_refuted, c80_exists, c80_facet_equation, c80_hllem, c80_roe, c80_scalar, c80_supersonic, c80_unique, c80_upwind, c81_farfield, c81_flux, c81_mixed, c81_walls, c82_balanced, c82_upwind_refuted, c83_farfield, c83_flux, c83_mixed, c83_walls, c84_bdf2_refuted, c84_iterates, c84_report_refuted, c84_steady_kept, c84_step_refuted, c84_unchanged, c86_flux, c86_smears, c86_wall, c88_ends, c88_flux, c88_outflow, c88_terms, c88_wall, c89_mixed

### `ClassicalDedekindReals.sig_forall_dec`, `ClassicalDedekindReals.sig_not_dec`, `Classical_Prop.classic`, `FunctionalExtensionality.functional_extensionality_dep` (158 theorems)

c05_bdf2_second_order, c05_implicit_euler_first_order, c36_boundary_parts, c38_bounds, c38_constant, c38_monotone, c38_penta_smooth, c39_exponential, c39_exponential_converges, c39_rejected, c39_tangential, c39_tangential_converges, c43_derivative, c45_jacobian, c48_similarity, c49_farfield, c49_increasing, c49_others, c49_sutherland, c50_adiabatic_wall, c51_flux, c51_gradient_method_refuted, c51_heat_flux, c51_numerical_flux, c51_raises, c51_stress, c51_uniform, c53_determined, c53_isentrope, c53_isentrope_temperature, c53_reference, c56_orientation, c56_thin_ring_refuted, c58_mass_inflow_refuted, c58_raises, c58_relaxes, c58_targets, c58_targets_missing, c58_uniform, c58_waves, c60_bdf2, c60_computed, c60_domain, c60_elements, c60_euler, c60_facets, c60_periodic, c61_inviscid_box, c61_isothermal, c61_isothermal_box, c62_diffusion, c62_stays, c64_constant, c64_derivative, c64_methods, c64_terms, c64_terms_refuted, c64_uniform, c64_upright, c64_viscosity_refuted, c65_built, c65_complete, c65_dictionary_refuted, c65_exactly, c65_layer_refuted, c65_limits, c65_success, c66_variables, c67_closed, c67_directions, c67_force, c67_local, c67_raises, c67_reynolds_refuted, c67_sign_refuted, c67_stress, c67_uniform, c68_bdf2_run, c68_bdf2_step, c68_layer, c68_run, c68_step, c72_bdf2_accuracy, c72_bdf2_second_order, c72_bdf2_second_order_refuted, c72_bdf2_startup_refuted, c72_euler_accuracy, c74_digits, c74_digits_refuted, c74_every_point_once, c74_interval, c74_interval_nan_refuted, c74_labels, c74_labels_refuted, c74_never_backwards, c74_strides_agree, c75_copied_regions, c75_domain, c75_layers, c75_materials, c75_no_levels, c75_order_refuted, c75_refused, c75_sizes, c75_sizes_refuted, c75_unnamed_refuted, c76_labels, c76_replay, c76_rerun_name_refuted, c76_restart, c76_times_refuted, c77_bdf2, c77_euler, c79_accurate, c79_damped, c79_far_refuted, c79_quadratic, c79_reported, c79_unique, c80_free_density_refuted, c81_cbc, c81_diffusion, c81_form, c81_solution, c81_viscous_axes, c81_viscous_mirror_refuted, c81_viscous_refuted, c81_viscous_terms, c82_condition, c82_half, c82_run, c82_viscous, c82_viscous_refuted, c83_cbc, c83_coefficients, c83_diffusion, c83_form, c83_local_reynolds_refuted, c83_reference, c83_solution, c83_viscous_terms, c84_converges, c84_reported, c85_bdf2_refuted, c85_bounded, c85_density, c85_physical, c85_run, c86_form, c86_run, c86_solves, c86_still, c86_unique, c87_together, c88_form, c88_solves, c89_form, c89_solves

