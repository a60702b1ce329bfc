# Formal model of RustBCA in Rocq (Coq 8.16.1)

## Approach

The code is modelled function by function as total Gallina functions that are
**generic in the number type**: a class `Num F` (theories/Num.v) lists the f64
operations the code uses (arithmetic, comparisons, `sqrt`, `powf`, `exp`, ...,
literals, `floor`, `as i32`).  The same model text is then used five times:

* *for every `Num F`* - structural and bookkeeping theorems (who is returned,
  which flags, which rows are written, which lookups panic) make no assumption
  on the arithmetic, so they hold for IEEE-754 doubles with NaN, infinities and
  rounding as well as for any other semantics;
* *for `F := R`* (theories/NumR.v) - physics theorems (conservation laws,
  derivatives, geometry) are about the formulas in exact real arithmetic.
  Coq's `x/0` and `sqrt` of a negative number are total junk values, so each
  such theorem carries the guards under which the code divides by non-zero
  numbers and takes roots of non-negative ones;
* *for `F := spec_float` (binary64)* (theories/NumSF.v) - statements about
  rounding and NaN use Coq's executable specification of IEEE-754 (`SpecFloat`,
  pure Gallina, no axioms).  Transcendental functions are left arbitrary there;
* *for `F := binary_float 53 1024`* (theories/NumB.v) - general theorems about
  rounding use Flocq's binary64 data (valid representations only); NumB.v proves
  that its operations are those of NumSF;
* *for `F := option R`* (theories/NumO.v) - exact arithmetic in which a quotient
  by zero, a root of a negative number and the like are undefined, propagate and
  compare false, so that statements need no guards.

A panic is a value: every function that can panic returns
`Res A := Ok a | Panic kind | OutOfFuel`.  Loops whose length is not known in
advance (`single_ion_bca`) take fuel and return `OutOfFuel` when it runs out;
theorems speak about `Ok` results, or say explicitly that no fuel suffices.
`rand::random::<f64>()` is a stream `nat -> F` read through a counter that is
threaded through the model, so "for every random stream" is a quantifier.

Geometry (a trait in the code) is a record of functions; Mesh0D, Mesh1D,
Mesh2D, HomogeneousMesh2D, Sphere, ParryBall are instances built by model
constructors.  `geo::Polygon::contains`/`closest_point` and parry3d trimesh
queries are external: they enter as arbitrary functions.

## Files

| file | content |
|---|---|
| Num.v | `Res`, the `Num` class, literals, sums, list access that can panic |
| NumR.v, NumSF.v, NumB.v, NumO.v | instances |
| Model*.v | the model, one file per source file; no proofs |
| Spec.v, SpecR.v, SpecCollision.v, SpecInput.v, SpecRun.v, SpecLib.v | specification vocabulary used in theorem statements |
| Toy.v, ToyR.v | small targets and ions used in examples of non-vacuity |
| ToyLibm.v, ToyRun.v | an executable binary64 math library (series) and complete simulation runs under it, for examples and refutations |
| Proofs*.v | lemmas |
| Properties*.v | the property theorems (each `exact lemma`) with `Print Assumptions` and examples |

## Trusted base

* Coq 8.16.1's kernel, including `vm_compute` where used (concrete runs).
* The faithfulness of the hand-written model to /repo/src.  Each definition
  cites file and lines, simplifications are stated in its comment, and
  tools/audit_citations.py checks the citations against the Rust items.
* Axioms: no axiom is added.  `Print Assumptions` after each theorem lists
  at most these four axioms of the standard library's real numbers:
  A1 `ClassicalDedekindReals.sig_forall_dec`,
  A2 `ClassicalDedekindReals.sig_not_dec`,
  A3 `Classical_Prop.classic`,
  A4 `FunctionalExtensionality.functional_extensionality_dep`.
  AXIOMS.md (written by tools/axioms.py) has the list per theorem.
* Reading of f64: theorems over R are about exact arithmetic and do not bound
  rounding errors; theorems for every `Num F` hold in f64; theorems in NumSF and NumB are
  about IEEE-754 binary64 as specified by SpecFloat, with an arbitrary libm.

## What is modelled

All functions of bca.rs, particle.rs, material.rs, geometry.rs, sphere.rs,
interactions.rs, consts.rs, physics.rs, output.rs, the checks and particle
generation of input.rs, the constructors and queries of parry.rs relative to
the external queries, main.rs as a relation between the files before and after a run (ModelMain.v) and the entry points of
lib.rs (C, Fortran, Python; yields and reflection coefficients; surface-normal
frames; memory layouts).  Cargo features: `cpr_rootfinder`, `distributions`
and `hdf5_input` are parameters of the model where they change behaviour.

## What is not modelled

* TOML syntax: `ModelToml.v` starts from the tree of TOML values and models what
  the derived deserializers read from it; the text-to-tree parser and `str::parse`
  of unit strings are not modelled.  An HDF5 file's content is an arbitrary list
  of rows.
* Printing: `Display`/`Debug`, progress bars (indicatif), number formatting in
  output files (rows are lists of numbers).
* Threads: rayon is modelled by its contract (an ordered `collect`, or an
  arbitrary interleaving of mutex-protected updates), not by its scheduler.
* `rand`: an arbitrary stream; its distribution is not modelled.  `Normal::new`
  is a predicate on the standard deviation, samples are arbitrary.
* libm: `sin`, `exp`, `powf`, ... are the real functions over R and arbitrary in
  binary64.
* External geometry: `geo` polygon queries, parry3d ball and trimesh queries
  enter as arbitrary functions or with their contract as a hypothesis.
* rcpr's Chebyshev-proxy and polynomial root finders are arbitrary functions.
* Raw pointers, `mem::forget`, Python objects: arguments are lists, results are
  values; only allocation sizes are modelled (C64).
* The feature `accelerated_ions` (it does not compile: bca.rs 185 calls
  `get_energy_barrier_thickness`, which no file of the repository defines),
  and trivial accessors/wrappers (`get_options`, `*_py` aliases).
* usize overflow and the conversion of lengths to c_int.

## Per-property plan

The theorem names and remarks are in MANIFEST.json.  "REFUTED" properties are
kept in view as stated; the theorem with suffix `_refuted` (or prefix `refuted`)
proves that the code violates them and the `_partial` theorem proves the part that holds.

| id | property | modelled | proof | status |
|---|---|---|---|---|
| C01 | Every returned particle is finished, in exactly one way, and the geometry agrees | single_ion_bca with its particle stack, all geometries as records of arbitrary functions (ModelBca, ModelGeometry) | invariant of the stack loop, induction on fuel, any Num F | proved |
| C02 | The incident ion is the first and only incident particle returned, with its identity preserved | same | stack-loop invariant: the bottom of the stack is the ion; identity fields never written; any Num F | proved |
| C03 | Every recoil comes from one target species and carries the ion's weight, tag and tracked vector | same, plus choose and the recoil constructor (ModelMaterial, ModelBca) | stack-loop invariant with an existential species index; any Num F | proved |
| C04 | With recoil tracking off exactly one particle comes back | same | stack-loop invariant with track_recoils = false | proved |
| C05 | single_ion_bca accepts any particle | same | refuted by the first pop; positive part: emptiness of the stack needs a finished particle, induction on fuel | partial (refuted as stated) |
| C06 | Trajectories are append-only histories that end where the particle ended | same, trajectory and energy-loss vectors | prefix relation preserved by every step; induction on fuel | proved |
| C07 | Every accepted particle is eventually stopped or leaves | same | refutation: invariant `parallel flight outside' gives OutOfFuel for every fuel; positive: measure on the distance to the boundary; fuel monotonicity by induction | partial (refuted as stated) |
| C08 | Energies never become negative | same, over R | invariant 0 <= E over all particles of the stack; in flight and returned | proved |
| C09 | A collision transfers between nothing and the kinematic maximum | calculate_binary_collision, scattering angles (ModelBca) over R | sin^2 bounds, field arithmetic | proved |
| C10 | A collision conserves energy and momentum in the laboratory frame | same | two-body kinematics in R, psi/psi_recoil from theta; real algebra | proved |
| C11 | Laboratory angles agree with the centre-of-mass angle | same | atan2 case analysis against the centre-of-mass angle | proved |
| C12 | Deflection keeps directions normalised and turns them by exactly psi | Particle::rotate (ModelParticle) over R | ring identities under ux^2 <> 1 | proved |
| C13 | Transport never reaches the excluded gimbal-lock direction | rotate over R | explicit counterexample; positive part by the closed form of the rotated x component | partial (refuted as stated) |
| C14 | The collision partner sits one free path ahead at one impact parameter's distance | choose_collision_partner (ModelBca) over R | counterexample; coordinates of the partner | partial (refuted as stated) |
| C15 | Free flight is along the pre-collision direction and path lengths telescope | Particle::advance (ModelParticle) over R | unfolding plus telescoping induction over a run | proved |
| C16 | Crossing the planar surface barrier is exact refraction | surface_refraction (ModelParticle) over R | Snell form: normal energy changes by Es, tangential momentum kept; real algebra | proved |
| C17 | Entering and leaving through the same surface restores the particle | surface_refraction over R | composition of two refractions; real algebra | proved |
| C18 | The surface barrier decides by normal energy and charges exactly the binding energy | boundary_condition_planar (ModelMaterial) over R | case analysis on the three inside/outside tests | proved |
| C19 | A particle reflected by the surface moves back towards the material in the next step | boundary_condition_planar, advance over R | counterexample run; positive part about the stored direction | partial (refuted as stated) |
| C20 | Entering the material never turns a particle around | boundary_condition_planar over R | counterexample; positive part under pos outside | partial (refuted as stated) |
| C21 | Electronic stopping removes min(E, loss), and what it reports bounds what it removes | update_particle_energy (ModelBca) over R | Rmin/Rmax case analysis | proved |
| C22 | Reported energy losses add up to the energy lost | update_particle_energy, energy-loss list | counterexample; step law | partial (refuted as stated) |
| C23 | Collision geometry sampling stays in its annuli | determine_mfp_phi_impact_parameter (ModelBca) over R | all mean free path models; per-index bounds | proved |
| C24 | The density-threshold mean free path model is honoured | same | refuted by independence of the result from the density; positive part by cases | partial (refuted as stated) |
| C25 | Species are drawn with their concentrations | Material::choose, cumulative concentrations over R | list induction over the partial sums | proved |
| C26 | Choosing a species never fails in double precision | Material::choose over binary64 (NumSF, NumB) | refutation computed in the IEEE specification; positive part by rounding-error bounds (Flocq) on the shares and their running sum | partial (refuted as stated) |
| C27 | Averages and surface binding energies follow the documented models | average_*, actual_surface_binding_energy (ModelMaterial) over R | weighted sums between min and max, list induction | proved |
| C28 | The AVERAGE surface model is zero when the target's local binding energy is zero | actual_surface_binding_energy AVERAGE | counterexample; positive part by sums of non-negative terms | partial (refuted as stated) |
| C29 | The bulk binding model option is honoured | material getters, single_ion_bca | congruence of the whole simulation in the ignored field, induction on fuel | partial (refuted as stated) |
| C30 | minimum_cutoff_energy is the minimum | minimum_cutoff_energy | fold_left minimum, list induction | proved |
| C31 | Electronic stopping scales with the correction factor | electronic_stopping_cross_sections over R | linearity; counterexample for INTERPOLATED | partial (refuted as stated) |
| C32 | Inside implies inside the barrier implies inside the simulation boundary | Mesh0D, Mesh1D, Sphere, ParryBall, Mesh2D, HomogeneousMesh2D, trimesh (ModelGeometry) | per-geometry real arithmetic; 2D and trimesh for any external query | proved |
| C33 | Layer lookup in a 1D mesh is total and unambiguous | Mesh1D layer search over R | list induction over layers; tiling invariant of the constructor | proved |
| C34 | A 1D mesh keeps every layer of its input | Mesh1D::new | counterexample; length of zip, induction | partial (refuted as stated) |
| C35 | closest_point returns a nearest point of the surface | closest_point of Mesh0D/Mesh1D/Sphere over R | nearest among all points of the surface; Cauchy-Schwarz for the sphere | proved |
| C36 | Triangle containment is containment | Triangle2D contains over R | sign tests equal barycentric coordinates | proved |
| C37 | Triangle distance is the distance to the triangle's outline | Triangle2D distance_to over R | distance to a segment is an infimum; minimum over three sides; exact panic condition | proved |
| C38 | 2D mesh lookups return the containing or the nearest cell | Mesh2D get_* lookups | find/minimum by list induction, any Num F for the inside part | proved |
| C39 | Concentrations are a probability vector | concentrations in every geometry constructor over R | sum of quotients | proved |
| C40 | Screening functions and their derivatives agree | screening functions and derivatives (ModelInteractions) over R | derivable_pt_lim from the library of exp | partial (refuted as stated) |
| C41 | The derivative handed to the root finders is the derivative of the function handed to them | doca functions and derivatives over R | derivable_pt_lim; counterexamples by evaluating both | partial (refuted as stated) |
| C42 | Roots of the distance-of-closest-approach functions are classical turning points | doca functions, both variants, over R | equivalence with 1 - V/E - p^2/r^2 = 0; field | partial (refuted as stated) |
| C43 | Polynomial coefficients encode the turning point equation | polynomial_coefficients over R | factoring the polynomial | proved |
| C44 | The Coulomb closed form is the turning point | Coulomb closed form | quadratic formula | proved |
| C45 | Newton's method only reports converged answers | newton_rootfinder (ModelBca) | induction on the iterations, any Num F; exact convergence for convex functions over R | proved |
| C46 | Head-on collisions are handled | newton_rootfinder in binary64 with an arbitrary math library | NaN propagation in SpecFloat | partial (refuted as stated) |
| C47 | crossing_point_doca is the outermost zero of the potential | crossing_point_doca over R | monotonicity of the potential beyond the point | proved |
| C48 | Quadratures give no deflection when there is no potential | the four quadratures over R | evaluation at zero potential | proved |
| C49 | Accepted options never cause an out-of-range interaction lookup | input() checks (ModelInput), lookups in calculate_binary_collision | index bounds follow from the accepted checks; any Num F | partial (refuted as stated) |
| C50 | Accepted options never reach an unimplemented combination | input() checks, dispatch of calculate_binary_collision | case analysis over all enum values | partial (refuted as stated) |
| C51 | Accepted inputs have per-species arrays of matching length | input() checks, Material::new | inversion of the check sequence | partial (refuted as stated) |
| C52 | The particle list is the requested one | input(): particle generation | list induction over the requested counts | proved |
| C53 | Weights and tags of particle input reach the simulation | Particle::from_input, input() | unfolding for every HDF5 row; positive part by C52 | partial (refuted as stated) |
| C54 | Chunking simulates every ion exactly once in order | physics_loop (ModelPhysics) | chunking of lists, concatenation | proved |
| C55 | The number of chunks is the requested one | physics_loop chunk size | ceiling arithmetic | partial (refuted as stated) |
| C56 | Parallel and serial runs agree | physics_loop parallel variant as any interleaving | collect order is input order; induction | proved |
| C57 | The per-species summary counts every particle once | output summary (ModelOutput) | list induction over particles | proved |
| C58 | Each particle is written to the right list files | output_lists rows and files (ModelOutput) | filter characterisation of each file, list induction | proved |
| C59 | Completed chunks survive a crash | buffered writers with arbitrary spilling (ModelOutput) | prefix invariant of written bytes, crash at any point | partial (refuted as stated) |
| C60 | Histograms count a particle in the bin that contains it | Distributions::update (ModelOutput) over R | floor/truncation arithmetic | partial (refuted as stated) |
| C61 | Default options do not depend on build features | default_options in both builds | comparison of records | partial (refuted as stated) |
| C62 | energy_origin is in the same unit as the energy | all particle constructors | unfolding | partial (refuted as stated) |
| C63 | C list interfaces keep their arrays aligned | tagged and list C interfaces (ModelLib) | collect loop invariant: equal lengths and zip | proved |
| C64 | Memory handed to C is freed with the layout it was allocated with | allocation layouts | arithmetic on sizes | partial (refuted as stated) |
| C65 | Yields and reflection coefficients do not depend on thread scheduling | parallel counters as any interleaving (ModelLib) | permutation invariance; refutation in binary64 | partial (refuted as stated) |
| C66 | Surface-normal frame changes are rotations that undo each other | surface_rotation (ModelLib) over R | orthogonality by field under |n| = 1 | proved |
| C67 | simple_compound_bca accepts any number of target species | simple_compound_bca | panic of idx for every species beyond the first; equality of targets for one species | partial (refuted as stated) |
| C68 | The command line selects the documented geometry | main.rs argument dispatch (ModelPhysics) | case analysis | proved |
| C69 | The implanted-energy bookkeeping of a cascade is bounded by the ion's energy | calculate_binary_collision and energy update over R | sum of energies over a collision | proved |
| C70 | List interfaces start the ion outside the surface barrier | start positions of every list interface over R | powers of real numbers, inequality of thicknesses | partial (refuted as stated) |
| C71 | reflect_single_ion_c reports zero energy exactly for ions that stay | reflect_single_ion_c | C01 plus the sign of x | partial (refuted as stated) |
| C72 | Python list results are aligned and stopped ions have zero energy | compound_bca_list_py, _1D_py, reflect_single_ion_py | collect loop invariant | proved |
| C73 | Directions are dimensionless | input(): directions in both builds | counterexample; positive part in R | partial (refuted as stated) |
| C74 | List interfaces accept velocities along the surface normal | velocity list interfaces, rotate in binary64 | NaN propagation; complete concrete run | partial (refuted as stated) |
| C75 | A transmitted or turned ion flies along its current direction | advance, boundary_condition_planar | counterexample run; positive step law | partial (refuted as stated) |
| C76 | The top surface belongs to the top layer | Mesh1D getters at x = top | counterexample; lookup just below the surface | partial (refuted as stated) |
| C77 | Gauss-Mehler scattering angles are angles | gauss_mehler over R | bounded sum of nodes | proved |
| C78 | Newton's method on a Lennard-Jones potential converges to the turning point | newton_rootfinder on Lennard-Jones over R | invariant interval of the iteration for an infinite family | partial (refuted as stated) |
| C79 | A distance reported by Newton's method is usable by the quadrature | newton_rootfinder, quadratures over R | radicand sign by monotonicity; counterexample for small energies | partial (refuted as stated) |
| C80 | The root finder option governs the collision | calculate_binary_collision dispatch | independence of the result from the option, case analysis | partial (refuted as stated) |
| C81 | Bookkeeping does not influence the physics | single_ion_bca, compound_tagged_bca_list_c, any arithmetic | two-run relation preserved by every function of the simulation | proved |
| C82 | Flat targets have no preferred place | single_ion_bca over the reals | two-run relation (shift) preserved by every function; symmetry of the four flat geometries | proved |
| C83 | Electronic stopping is taken at the particle's own position | electronic_stopping_cross_sections | the seven geometries are uniform in z | proved |
| C84 | List interfaces simulate their ions one after the other | all list interfaces | induction over the first list, equality of computations on the random stream | proved |
| C85 | Electronic stopping follows Lindhard-Scharff and Bethe | electronic_stopping_cross_sections over the reals | field identities against a separate statement of the formulas | proved |
| C86 | An accepted incident particle is well formed | from_input, default_incident over the reals and binary64 | case analysis; counterexamples by evaluation | partial (refuted as stated) |
| C87 | The choice of units does not matter | all geometry constructors, Material::new over the reals | conversion lemmas per list | proved |
| C88 | Electronic losses follow the stopping mode | bca_step, subtract_electronic_stopping_energy over the reals; a run in binary64 | formulas against a separate statement; counterexample by evaluation | partial (refuted as stated) |
| C89 | Electronic stopping only slows particles down | bca_step over the reals; a run in binary64 | sign of each factor; counterexample by evaluation | partial (refuted as stated) |
| C90 | A cascade carries no more energy than the ion brought | single_ion_bca over the reals; a run in binary64 | the total energy of the stack never increases, induction over the run; counterexample by evaluation | partial (refuted as stated) |
| C91 | A collision pushes the projectile the right way | collision_step over the reals | dot products of the deflection and the partner's offset; two counterexamples over the reals | partial (refuted as stated) |
| C92 | Deep recoils are dropped exactly beyond their range | keep_recoil over the reals | identity with Eckstein's range formula | proved |
| C93 | High-energy free flight paths follow their model | determine_mfp_phi_impact_parameter over the reals; a run in binary64 | identity with the formulas; counterexample by evaluation | partial (refuted as stated) |
| C94 | Following recoils does not change the ion | single_ion_bca for any number type | simulation between two runs, induction over the collision and trajectory loops | proved |
| C95 | The CPR and polynomial root finders return the outermost turning point | polynomial_rootfinder, cpr_rootfinder over the reals | the maximum of the listed roots, factorisation of the distance of closest approach function; sign of the potential beyond the crossing point | proved |
| C96 | The Gauss-Legendre quadrature is the five-point rule | scattering_integral_gauss_legendre over the reals | error of each moment bounded by interval arithmetic on the nodes and weights, linearity | proved |
| C97 | A flat target has no preferred azimuth | single_ion_bca over the reals, 0D and 1D targets; runs in binary64 | equivariance of every step under lateral orthogonal maps, simulation between two runs; counterexample by evaluation | partial (refuted as stated) |
| C98 | Every simulation has its mirror image | single_ion_bca over the reals with two random streams | equivariance of every step under reflections, where the azimuthal draw is mirrored; induction over the collision and trajectory loops | proved |
| C99 | Screened interactions are screened Coulomb repulsions | interaction_potential and screening_length over the reals | positivity, monotonicity and convexity of sums of exponentials | partial (refuted as stated) |
| C100 | Attractive potentials have the well their parameters describe | lennard_jones, lennard_jones_65_6, morse, four_eight over the reals | completing squares; a factorisation of 12 s^13 - 13 s^12 + 1 | proved |
| C101 | Joined potentials are joined | tungsten_tungsten_cubic_spline, krc_morse over the reals | continuity of the pieces; bounds of exponentials by Taylor polynomials and repeated squaring; convex combination | proved |
| C102 | Entry points simulate the ions and targets their arguments describe | the entry points of lib.rs over the reals | inversion of each entry point against a separate description of ion, target and rows; induction over the list of ions | proved |
| C103 | Leaving costs the surface binding energy and displacing costs the bulk binding energy | single_ion_bca over the reals; runs in binary64 | energy counted with what is owed to the barrier never grows in an iteration; induction over the trajectory and stack loops along the states the run reaches; counterexamples by evaluation | partial (refuted as stated) |
| C104 | A species may be entered in parts, and a species that is not there has no influence | single_ion_bca over the reals on two targets; runs in binary64 | the transport code sees a target only through queries that agree on both targets up to a renumbering of species; simulation of the two runs; counterexample by evaluation | partial (refuted as stated) |
| C105 | Rounding makes no energy negative or undefined | single_ion_bca over IEEE-754 binary64 data (Flocq's binary_float), math library a parameter | rounding-error analysis of 4 Ma Mb/(Ma+Mb)^2 (at most 1 when masses are equal or apart), monotonicity of rounding, run invariant; counterexample by evaluation | partial (refuted as stated) |
| C106 | How far a surface binds and particles are followed | constructors and the three point predicates of all geometries over the reals | unfolding of the constructors, sum of the layer thicknesses by induction, comparison of point predicates with independent formulas | proved |
| C107 | Returned particles have a direction of length one | single_ion_bca over option R (None = undefined, propagates and compares false); over binary64 | invariant of a run: rotation renormalises, refraction and reflection preserve the length; counterexample by evaluation | partial (refuted as stated) |
| C108 | Public helper functions return what their names say | get_momentum, refraction_angle, Summary::new/add, Triangle2D centroid, Layer1D distance, get_concentrations | direct proofs over R; induction over the list of particles for the summary | proved |
| C109 | Sampled paths and impact parameters are usable numbers in double precision | determine_mfp_phi_impact_parameter over Flocq binary64 | monotonicity of rounding, sqrt and products; integers up to 2^53 are exact; counterexample by evaluation | partial (refuted as stated) |
| C110 | Every point of a 2D mesh has a cell | Mesh2D lookups over R and over binary64 | containment equals the convex hull over R; evaluation of the barycentric coordinates in binary64 | partial (refuted as stated) |
| C111 | Targets are well defined for every double | Mesh0D, Mesh1D and Sphere over binary64 | the doubles without NaN are ordered by a real key; sums and multiples of non-negative doubles are clipped rounded sums | proved |
| C112 | Sampled collision geometries have the documented distributions | determine_mfp_phi_impact_parameter over R | closed form of the sampled values, inversion of square root and logarithm | proved |
| C113 | Entry points given the same simulation return the same particles | both functions of each pair, on one random stream | lock-step simulation of C81; the surplus displacement energies of simple_bca_list_c are never read | proved |
| C114 | Every requested ion is accounted for | input, physics_loop and output_lists composed, with rayon's contract | corollary of C01, C02, C52, C54, C56 and C58 | proved |
| C115 | The default scattering angle is the Gauss-Lobatto value of the classical integral | mendenhall_weller and scattering_integral_mw over R; spec: the classical integrand, its substitution and the Lobatto nodes (SpecAngle.v) | derivative of the radial energy at the turning point gives the end-point limit; squeeze at infinity; rational bounds on pi and sqrt 5 give the nodes; screening monotonicity gives positivity and the range | proved |
| C116 | The MAGIC angle is the formula of Biersack and Haggmark | magic over R; spec: the formula in its published form (SpecAngle.v) | field identity for the rearranged correction; the bound D (sqrt(1+D^2) - D) < 1/2 and C5 < 2 C4 give the range | proved |
| C117 | Exactly the consistent input files are accepted | input() composed of its checks, the unit tables, material_new and the sampling of the particles | each check proved equivalent to its clause, composed through the error monad; sampling proved to succeed independently of the stream | proved |
| C118 | More quadrature points bring the Gauss-Mehler angle to the classical scattering angle | gauss_mehler and the potentials over R; the classical integral in SpecClassical.v | Substitute r = r0 / cos(pi t / 2); the integrand extends continuously to [0,1] (slope at the turning point from C115), the n-point rule is its midpoint sum, and midpoint sums of a uniformly continuous function converge | proved |
| C119 | Coulomb scattering is Rutherford scattering | gauss_mehler, the Coulomb potential and its closed-form distance of closest approach over R | Explicit antiderivative 4 asin(k sin(pi t / 4)) of the transformed integrand; double angle formulas; convergence as in C118 | proved |
| C120 | Exactly the consistent geometries are accepted | the constructors of all seven geometries | each check proved equivalent to its clause (good/bind framework of C117); induction over the layers for the boundaries | proved |
| C121 | Output features do not change the simulation | physics_loop with the conditional compilation of physics.rs 10, 15, 60, 63, 68, 75 as a record of features (ModelFeatures.v); the list files are None when they are never opened. | Induction over chunks and particles comparing the feature loop with the plain loop; the histogram updates never panic (C60) and are threaded through. | proved |
| C122 | Closer collisions deflect more and transfer more energy | the four scattering rules and the collision kinematics over R | at a turning point p/r0 is a function of V(r0)/E; every quadrature term is shown to grow with p because r |V'(r)| falls with r for every term of the screening function (mean value theorem); sums with positive weights; sin^2(theta/2) is increasing on [0, pi] | proved |
| C123 | An input file is read as it is written | the derived deserializers of every input structure and enum over a tree of TOML values | a separate specification says how each value is written; reading inverts writing, field by field; a lookup in a table with distinct keys does not depend on order or on other keys | proved |
| C124 | What an input file says has an effect | input() and the deserializers | expand_indices [i] does not depend on i; two tables that agree on the known keys give the same lookups | partial (refuted as stated) |
| C125 | Faster projectiles deflect less and lose a smaller share of their energy | ModelBca.v / ModelInteractions.v as modelled | monotonicity of each quadrature's terms in the energy at fixed impact parameter, from a convexity property of ln V proved for each coefficient table; limit for the classical angle | proved |
| C126 | What a run of the program does to the files | ModelMain.v: the whole program as a relation between the file system before and after, with a constructor for each way to end | case analysis on how the run ended; the loop invariant links the state between two chunks to the complete loop; C114, C58 and the stream lemmas of C59 | proved |
| C127 | The build with histograms writes the plain build's lists and counts the same particles | ModelDistributions.v: the options of the feature and the main loop with the histogram update, over the histogram model of C60 | induction over chunks and particles; each update adds at most one to each histogram | proved |
| C128 | The histograms never stop a run the plain build completes | the same model | the loop is total from the shape invariant of the histograms (C60); the refutation shows every chunk returns at least one particle per ion and the first update indexes entry 1 of the axis | partial (refuted as stated) |
| C129 | Averages of the sampled collision geometries | the sampling model of bca.rs over R | closed form of the samples (C112's lemma), then primitives and their limits at 0 and 1 (u ln u tends to 0) | proved |
| C130 | Histograms in double precision put values in the right bins | the histogram model over binary64 (Flocq) | monotonicity of each rounded operation, floor and saturating cast; the relative error of one division; the refutations by computation | partial (refuted as stated) |
| C131 | Directions keep length one in double precision | Vector and Particle::rotate over binary64 (Flocq) | error of each rounded operation (relative, plus 2^-1075 below the normal range); the exact rotation of nearly exact data; renormalising absorbs the errors | proved |
| C132 | Collisions and flights conserve energy in double precision | collision_step, collision_loop and bca_step over binary64 (Flocq) | relative errors of the mass factor, the product and the differences; invariant of the collision loop; errors add up linearly | proved |
