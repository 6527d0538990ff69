{
 "C01": {
  "note": "exact rational arithmetic; C74 has the doubles; the end may be overshot by less than half a step when the interval is not a multiple of the step (refuted variant)"
 },
 "C02": {
  "note": "holds when the start has no more decimals than the step; general claim refuted"
 },
 "C05": {
  "note": "first BDF2 step inconsistent (refuted variant)"
 },
 "C06": {
  "note": "increment_at = 0 and increment_factor = 0 refuted; that every solve starts with the step that was set is refuted (the enlarged step stays)"
 },
 "C08": {
  "note": "empty timer and stationary runs raise (refuted variants)"
 },
 "C10": {
  "note": "final time levels may be missing, proved as refuted variant"
 },
 "C12": {
  "note": "rate 1; higher rates refuted"
 },
 "C14": {
  "note": "mesh and settings stream make every solve fail (refuted variant)"
 },
 "C15": {
  "note": "sensors of equal name across kinds and a failing open leak files (refuted variants)"
 },
 "C16": {
  "note": "rows of stationary runs lack the time cell and small matrices are rejected (refuted variants)"
 },
 "C17": {
  "note": "guard: no other folder stored at exactly the old location; without it the setter does not return (refuted variant)"
 },
 "C19": {
  "note": "file handler clause for histories in which all log files could be opened; otherwise refuted variant"
 },
 "C20": {
  "note": "dictionaries are applied entry by entry (refuted variant)"
 },
 "C22": {
  "note": "instances used with one root at a time; otherwise refuted variant"
 },
 "C24": {
  "note": "inherited names and aliases, case of lookup, failed registration: refuted variants"
 },
 "C25": {
  "note": "proved for the solver without its io option; false with it (refuted variants)"
 },
 "C26": {
  "note": "activating a stream by update is ignored (refuted variant)"
 },
 "C27": {
  "note": "reading or deleting by symbol and redeclared symbols refuted"
 },
 "C28": {
  "note": "deselecting defaults refuted"
 },
 "C31": {
  "note": "guard: different region lists; otherwise one condition is lost (refuted variants)"
 },
 "C35": {
  "note": "resetting a coordinate, changing the dimension, fresh objects, overall deformation without layers: refuted variants"
 },
 "C39": {
  "note": "polar components off the axes; on the axes division by zero (refuted variant)"
 },
 "C41": {
  "note": "speed of sound from the specific inner energy refuted"
 },
 "C46": {
  "note": "completeness when no wave stands still; otherwise refuted variant"
 },
 "C48": {
  "note": "documented temperature and pressure of the aeroacoustic scaling refuted"
 },
 "C50": {
  "note": "default far field condition does not admit a uniform flow along the boundary (refuted variant)"
 },
 "C51": {
  "note": "trace in two dimensions and gradient method refuted"
 },
 "C52": {
  "note": "dictionary keys and four factors in two dimensions refuted"
 },
 "C55": {
  "note": "domain conditions that make the set-up fail, polynomial sponge layers, mixed periodic boundaries: refuted variants"
 },
 "C56": {
  "note": "thin rings and the closing segment refuted"
 },
 "C58": {
  "note": "mass inflow from density, velocity and pressure refuted"
 },
 "C59": {
  "note": "convergence criterion in general and equality of the reported error refuted"
 },
 "C61": {
  "note": "upwind solver refuted"
 },
 "C64": {
  "note": "Jacobians with Sutherland's law and the characteristic viscous terms refuted"
 },
 "C65": {
  "note": "plain dictionaries as initial state and layers on the domains of the initial condition refuted"
 },
 "C67": {
  "note": "sign of drag and local Reynolds number of the far field refuted"
 },
 "C69": {
  "note": "boundary sensors without regions, sensors none of whose names exists and sensors of a single component refuted"
 },
 "C70": {
  "note": "bounds for orders above zero refuted"
 },
 "C71": {
  "note": "positivity for orders above zero and domains without initial condition refuted"
 },
 "C72": {
  "note": "for dissipative spatial forms (a hypothesis on the problem); second order of BDF2 with the start used by the code refuted in general, proved for solutions starting at rest"
 },
 "C73": {
  "note": "sharing of one file by mesh and settings, names with folders and side effects of loading refuted"
 },
 "C74": {
  "note": "IEEE doubles of Flocq; decimals of steps above one half, their labels, and NaN in the interval refuted"
 },
 "C75": {
  "note": "shapes of the geometry kernel are sets of points with names; order of element sizes, names without a sponge and unchecked order of radii refuted"
 },
 "C76": {
  "note": "the nonlinear solve is an oracle on everything in memory and the clock; the state at a restart is compared with an uninterrupted run for solves that do not depend on the clock; initial file, schedule, clock and state-only restarts refuted"
 },
 "C77": {
  "note": "the disturbances are derivatives of families of discrete solutions at the uniform flow; that such families exist is a hypothesis (the example gives one); the rules integrate the product rule exactly, facet functions on different facets are independent and facets of the domain boundary are straight"
 },
 "C78": {
  "note": "the writer of the module csv, text files and the modes of open are modelled as documented by Python; of pandas only the division of rows into header, index and cells; the reader is a separate specification; conversion of numbers to text is a parameter"
 },
 "C79": {
  "note": "builds on the models of C07 and C59; that AssembleLinearization is the derivative of Apply is a hypothesis (NGSolve); exact arithmetic"
 },
 "C80": {
  "note": "builds on the models of C47 and C58; existence is not shown for Upwind; test functions of the facets may take any values at the quadrature points"
 },
 "C81": {
  "note": "builds on the models of C47, C50, C51, C58, C60 and C63; that a turned mesh has the same quadrature points and the turned normals and shape functions is part of the trusted base (vector valued spaces made of components with equal shape functions)"
 },
 "C82": {
  "note": "builds on the models of C47, C50, C60 and C81; the doubled mesh is the half with even and its image with odd point numbers, and its test functions are pairs of test functions of the half with one value on the plane; the viscous case is refuted at facets (c82_viscous_refuted), with c82_viscous the exact condition"
 },
 "C83": {
  "note": "builds on the models of C45-C51, C58, C60, C63 and C67; test spaces are closed under other weights of the components and of the facets of the domain boundary, as spaces without coupling between components and facets are; the adiabatic wall raises (C50) and is left out; c83_back gives the converse"
 },
 "C84": {
  "note": "levels of all variables with a temporal integrator in one vector (rows of the mass matrix are zero for other unknowns); assembly and factorisation as in C59; the convergence theorems suppose a steady state with decaying perturbations (stable_state)"
 },
 "C85": {
  "note": "quadrature weights positive; the facet states are supposed physical (for states that are not the sound speed is no real number or the facet has no gas); the discrete problem is supposed to be solved exactly"
 },
 "C86": {
  "note": "builds on the models of C47, C50, C58 and C60; that the computed step is the transported one needs that it has no other solution among the flows in question (c86_unique); quadrature exact for gradients of test functions (gauss)"
 },
 "C87": {
  "note": "builds on the models of C29-C31, C55 and C60; conditions created by the same keyword are supposed to behave alike; patterns are regular expressions for NGSolve, names are supposed to have no special characters"
 },
 "C88": {
  "note": "uses the model of the weak form of C55; the other fluxes need characteristic matrices, which do not exist in three dimensions; farfield and characteristic conditions fail there for the same reason"
 },
 "C89": {
  "note": "uses the model of the weak form of C55; that NGSolve identifies the facet unknowns of periodic boundaries is an assumption on the spaces, stated as gluing of facets"
 },
 "C91": {
  "note": "that scenes of earlier drawings are refreshed as well is refuted"
 },
 "C93": {
  "note": "that a stored configuration brings its sensors back is refuted"
 },
 "C68": {
  "note": "positivity of BDF2 steps from two physical levels and of BDF2 runs with large dt w is refuted; holds if the weighted difference of the levels is physical and for runs with dt w <= 1/2"
 },
 "C94": {
  "note": "texts for numbers are outside the model; that words for off switch off and that fractional increment factors act is refuted"
 }
}