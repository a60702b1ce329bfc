# property -> (what is modelled, how it is proved)
PLAN = {
"C01": ("single_ion_bca with its particle stack, all geometries as records of arbitrary functions (ModelBca, ModelGeometry)", "invariant of the stack loop, induction on fuel, any Num F"),
"C02": ("same", "stack-loop invariant: the bottom of the stack is the ion; identity fields never written; any Num F"),
"C03": ("same, plus choose and the recoil constructor (ModelMaterial, ModelBca)", "stack-loop invariant with an existential species index; any Num F"),
"C04": ("same", "stack-loop invariant with track_recoils = false"),
"C05": ("same", "refuted by the first pop; positive part: emptiness of the stack needs a finished particle, induction on fuel"),
"C06": ("same, trajectory and energy-loss vectors", "prefix relation preserved by every step; induction on fuel"),
"C07": ("same", "refutation: invariant `parallel flight outside' gives OutOfFuel for every fuel; positive: measure on the distance to the boundary; fuel monotonicity by induction"),
"C08": ("same, over R", "invariant 0 <= E over all particles of the stack; in flight and returned"),
"C09": ("calculate_binary_collision, scattering angles (ModelBca) over R", "sin^2 bounds, field arithmetic"),
"C10": ("same", "two-body kinematics in R, psi/psi_recoil from theta; real algebra"),
"C11": ("same", "atan2 case analysis against the centre-of-mass angle"),
"C12": ("Particle::rotate (ModelParticle) over R", "ring identities under ux^2 <> 1"),
"C13": ("rotate over R", "explicit counterexample; positive part by the closed form of the rotated x component"),
"C14": ("choose_collision_partner (ModelBca) over R", "counterexample; coordinates of the partner"),
"C15": ("Particle::advance (ModelParticle) over R", "unfolding plus telescoping induction over a run"),
"C16": ("surface_refraction (ModelParticle) over R", "Snell form: normal energy changes by Es, tangential momentum kept; real algebra"),
"C17": ("surface_refraction over R", "composition of two refractions; real algebra"),
"C18": ("boundary_condition_planar (ModelMaterial) over R", "case analysis on the three inside/outside tests"),
"C19": ("boundary_condition_planar, advance over R", "counterexample run; positive part about the stored direction"),
"C20": ("boundary_condition_planar over R", "counterexample; positive part under pos outside"),
"C21": ("update_particle_energy (ModelBca) over R", "Rmin/Rmax case analysis"),
"C22": ("update_particle_energy, energy-loss list", "counterexample; step law"),
"C23": ("determine_mfp_phi_impact_parameter (ModelBca) over R", "all mean free path models; per-index bounds"),
"C24": ("same", "refuted by independence of the result from the density; positive part by cases"),
"C25": ("Material::choose, cumulative concentrations over R", "list induction over the partial sums"),
"C26": ("Material::choose over binary64 (NumSF, NumB)", "refutation computed in the IEEE specification; positive part by rounding-error bounds (Flocq) on the shares and their running sum"),
"C27": ("average_*, actual_surface_binding_energy (ModelMaterial) over R", "weighted sums between min and max, list induction"),
"C28": ("actual_surface_binding_energy AVERAGE", "counterexample; positive part by sums of non-negative terms"),
"C29": ("material getters, single_ion_bca", "congruence of the whole simulation in the ignored field, induction on fuel"),
"C30": ("minimum_cutoff_energy", "fold_left minimum, list induction"),
"C31": ("electronic_stopping_cross_sections over R", "linearity; counterexample for INTERPOLATED"),
"C32": ("Mesh0D, Mesh1D, Sphere, ParryBall, Mesh2D, HomogeneousMesh2D, trimesh (ModelGeometry)", "per-geometry real arithmetic; 2D and trimesh for any external query"),
"C33": ("Mesh1D layer search over R", "list induction over layers; tiling invariant of the constructor"),
"C34": ("Mesh1D::new", "counterexample; length of zip, induction"),
"C35": ("closest_point of Mesh0D/Mesh1D/Sphere over R", "nearest among all points of the surface; Cauchy-Schwarz for the sphere"),
"C36": ("Triangle2D contains over R", "sign tests equal barycentric coordinates"),
"C37": ("Triangle2D distance_to over R", "distance to a segment is an infimum; minimum over three sides; exact panic condition"),
"C38": ("Mesh2D get_* lookups", "find/minimum by list induction, any Num F for the inside part"),
"C39": ("concentrations in every geometry constructor over R", "sum of quotients"),
"C40": ("screening functions and derivatives (ModelInteractions) over R", "derivable_pt_lim from the library of exp"),
"C41": ("doca functions and derivatives over R", "derivable_pt_lim; counterexamples by evaluating both"),
"C42": ("doca functions, both variants, over R", "equivalence with 1 - V/E - p^2/r^2 = 0; field"),
"C43": ("polynomial_coefficients over R", "factoring the polynomial"),
"C44": ("Coulomb closed form", "quadratic formula"),
"C45": ("newton_rootfinder (ModelBca)", "induction on the iterations, any Num F; exact convergence for convex functions over R"),
"C46": ("newton_rootfinder in binary64 with an arbitrary math library", "NaN propagation in SpecFloat"),
"C47": ("crossing_point_doca over R", "monotonicity of the potential beyond the point"),
"C48": ("the four quadratures over R", "evaluation at zero potential"),
"C77": ("gauss_mehler over R", "bounded sum of nodes"),
"C78": ("newton_rootfinder on Lennard-Jones over R", "invariant interval of the iteration for an infinite family"),
"C79": ("newton_rootfinder, quadratures over R", "radicand sign by monotonicity; counterexample for small energies"),
"C49": ("input() checks (ModelInput), lookups in calculate_binary_collision", "index bounds follow from the accepted checks; any Num F"),
"C50": ("input() checks, dispatch of calculate_binary_collision", "case analysis over all enum values"),
"C51": ("input() checks, Material::new", "inversion of the check sequence"),
"C52": ("input(): particle generation", "list induction over the requested counts"),
"C53": ("Particle::from_input, input()", "unfolding for every HDF5 row; positive part by C52"),
"C61": ("default_options in both builds", "comparison of records"),
"C73": ("input(): directions in both builds", "counterexample; positive part in R"),
"C80": ("calculate_binary_collision dispatch", "independence of the result from the option, case analysis"),
"C54": ("physics_loop (ModelPhysics)", "chunking of lists, concatenation"),
"C55": ("physics_loop chunk size", "ceiling arithmetic"),
"C56": ("physics_loop parallel variant as any interleaving", "collect order is input order; induction"),
"C57": ("output summary (ModelOutput)", "list induction over particles"),
"C58": ("output_lists rows and files (ModelOutput)", "filter characterisation of each file, list induction"),
"C59": ("buffered writers with arbitrary spilling (ModelOutput)", "prefix invariant of written bytes, crash at any point"),
"C60": ("Distributions::update (ModelOutput) over R", "floor/truncation arithmetic"),
"C62": ("all particle constructors", "unfolding"),
"C63": ("tagged and list C interfaces (ModelLib)", "collect loop invariant: equal lengths and zip"),
"C64": ("allocation layouts", "arithmetic on sizes"),
"C65": ("parallel counters as any interleaving (ModelLib)", "permutation invariance; refutation in binary64"),
"C66": ("surface_rotation (ModelLib) over R", "orthogonality by field under |n| = 1"),
"C67": ("simple_compound_bca", "panic of idx for every species beyond the first; equality of targets for one species"),
"C68": ("main.rs argument dispatch (ModelPhysics)", "case analysis"),
"C69": ("calculate_binary_collision and energy update over R", "sum of energies over a collision"),
"C70": ("start positions of every list interface over R", "powers of real numbers, inequality of thicknesses"),
"C71": ("reflect_single_ion_c", "C01 plus the sign of x"),
"C72": ("compound_bca_list_py, _1D_py, reflect_single_ion_py", "collect loop invariant"),
"C74": ("velocity list interfaces, rotate in binary64", "NaN propagation; complete concrete run"),
"C75": ("advance, boundary_condition_planar", "counterexample run; positive step law"),
"C76": ("Mesh1D getters at x = top", "counterexample; lookup just below the surface"),
"C81": ("single_ion_bca, compound_tagged_bca_list_c, any arithmetic", "two-run relation preserved by every function of the simulation"),
"C82": ("single_ion_bca over the reals", "two-run relation (shift) preserved by every function; symmetry of the four flat geometries"),
"C83": ("electronic_stopping_cross_sections", "the seven geometries are uniform in z"),
"C84": ("all list interfaces", "induction over the first list, equality of computations on the random stream"),
"C85": ("electronic_stopping_cross_sections over the reals", "field identities against a separate statement of the formulas"),
"C86": ("from_input, default_incident over the reals and binary64", "case analysis; counterexamples by evaluation"),
"C87": ("all geometry constructors, Material::new over the reals", "conversion lemmas per list"),
"C88": ("bca_step, subtract_electronic_stopping_energy over the reals; a run in binary64", "formulas against a separate statement; counterexample by evaluation"),
"C89": ("bca_step over the reals; a run in binary64", "sign of each factor; counterexample by evaluation"),
"C90": ("single_ion_bca over the reals; a run in binary64", "the total energy of the stack never increases, induction over the run; counterexample by evaluation"),
"C91": ("collision_step over the reals", "dot products of the deflection and the partner's offset; two counterexamples over the reals"),
"C92": ("keep_recoil over the reals", "identity with Eckstein's range formula"),
"C93": ("determine_mfp_phi_impact_parameter over the reals; a run in binary64", "identity with the formulas; counterexample by evaluation"),
"C94": ("single_ion_bca for any number type", "simulation between two runs, induction over the collision and trajectory loops"),
"C95": ("polynomial_rootfinder, cpr_rootfinder over the reals", "the maximum of the listed roots, factorisation of the distance of closest approach function; sign of the potential beyond the crossing point"),
"C96": ("scattering_integral_gauss_legendre over the reals", "error of each moment bounded by interval arithmetic on the nodes and weights, linearity"),
"C97": ("single_ion_bca over the reals, 0D and 1D targets; runs in binary64", "equivariance of every step under lateral orthogonal maps, simulation between two runs; counterexample by evaluation"),
"C98": ("single_ion_bca over the reals with two random streams", "equivariance of every step under reflections, where the azimuthal draw is mirrored; induction over the collision and trajectory loops"),
"C99": ("interaction_potential and screening_length over the reals", "positivity, monotonicity and convexity of sums of exponentials"),
"C100": ("lennard_jones, lennard_jones_65_6, morse, four_eight over the reals", "completing squares; a factorisation of 12 s^13 - 13 s^12 + 1"),
"C101": ("tungsten_tungsten_cubic_spline, krc_morse over the reals", "continuity of the pieces; bounds of exponentials by Taylor polynomials and repeated squaring; convex combination"),
"C102": ("the entry points of lib.rs over the reals", "inversion of each entry point against a separate description of ion, target and rows; induction over the list of ions"),
"C103": ("single_ion_bca over the reals; runs in binary64", "energy counted with what is owed to the barrier never grows in an iteration; induction over the trajectory and stack loops along the states the run reaches; counterexamples by evaluation"),
"C104": ("single_ion_bca over the reals on two targets; runs in binary64", "the transport code sees a target only through queries that agree on both targets up to a renumbering of species; simulation of the two runs; counterexample by evaluation"),
"C105": ("single_ion_bca over IEEE-754 binary64 data (Flocq's binary_float), math library a parameter", "rounding-error analysis of 4 Ma Mb/(Ma+Mb)^2 (at most 1 when masses are equal or apart), monotonicity of rounding, run invariant; counterexample by evaluation"),
"C106": ("constructors and the three point predicates of all geometries over the reals", "unfolding of the constructors, sum of the layer thicknesses by induction, comparison of point predicates with independent formulas"),
"C107": ("single_ion_bca over option R (None = undefined, propagates and compares false); over binary64", "invariant of a run: rotation renormalises, refraction and reflection preserve the length; counterexample by evaluation"),
"C108": ("get_momentum, refraction_angle, Summary::new/add, Triangle2D centroid, Layer1D distance, get_concentrations", "direct proofs over R; induction over the list of particles for the summary"),
"C109": ("determine_mfp_phi_impact_parameter over Flocq binary64", "monotonicity of rounding, sqrt and products; integers up to 2^53 are exact; counterexample by evaluation"),
"C110": ("Mesh2D lookups over R and over binary64", "containment equals the convex hull over R; evaluation of the barycentric coordinates in binary64"),
"C111": ("Mesh0D, Mesh1D and Sphere over binary64", "the doubles without NaN are ordered by a real key; sums and multiples of non-negative doubles are clipped rounded sums"),
"C112": ("determine_mfp_phi_impact_parameter over R", "closed form of the sampled values, inversion of square root and logarithm"),
"C113": ("both functions of each pair, on one random stream", "lock-step simulation of C81; the surplus displacement energies of simple_bca_list_c are never read"),
"C114": ("input, physics_loop and output_lists composed, with rayon's contract", "corollary of C01, C02, C52, C54, C56 and C58"),
"C115": ("mendenhall_weller and scattering_integral_mw over R; spec: the classical integrand, its substitution and the Lobatto nodes (SpecAngle.v)", "derivative of the radial energy at the turning point gives the end-point limit; squeeze at infinity; rational bounds on pi and sqrt 5 give the nodes; screening monotonicity gives positivity and the range"),
"C116": ("magic over R; spec: the formula in its published form (SpecAngle.v)", "field identity for the rearranged correction; the bound D (sqrt(1+D^2) - D) < 1/2 and C5 < 2 C4 give the range"),
"C117": ("input() composed of its checks, the unit tables, material_new and the sampling of the particles", "each check proved equivalent to its clause, composed through the error monad; sampling proved to succeed independently of the stream"),
"C118": ("gauss_mehler and the potentials over R; the classical integral in SpecClassical.v", "Substitute r = r0 / cos(pi t / 2); the integrand extends continuously to [0,1] (slope at the turning point from C115), the n-point rule is its midpoint sum, and midpoint sums of a uniformly continuous function converge"),
"C119": ("gauss_mehler, the Coulomb potential and its closed-form distance of closest approach over R", "Explicit antiderivative 4 asin(k sin(pi t / 4)) of the transformed integrand; double angle formulas; convergence as in C118"),
"C120": ("the constructors of all seven geometries", "each check proved equivalent to its clause (good/bind framework of C117); induction over the layers for the boundaries"),
"C121": ("physics_loop with the conditional compilation of physics.rs 10, 15, 60, 63, 68, 75 as a record of features (ModelFeatures.v); the list files are None when they are never opened.", "Induction over chunks and particles comparing the feature loop with the plain loop; the histogram updates never panic (C60) and are threaded through."),
"C122": ("the four scattering rules and the collision kinematics over R", "at a turning point p/r0 is a function of V(r0)/E; every quadrature term is shown to grow with p because r |V'(r)| falls with r for every term of the screening function (mean value theorem); sums with positive weights; sin^2(theta/2) is increasing on [0, pi]"),
"C123": ("the derived deserializers of every input structure and enum over a tree of TOML values", "a separate specification says how each value is written; reading inverts writing, field by field; a lookup in a table with distinct keys does not depend on order or on other keys"),
"C124": ("input() and the deserializers", "expand_indices [i] does not depend on i; two tables that agree on the known keys give the same lookups"),
"C125": ("ModelBca.v / ModelInteractions.v as modelled", "monotonicity of each quadrature's terms in the energy at fixed impact parameter, from a convexity property of ln V proved for each coefficient table; limit for the classical angle"),
"C126": ("ModelMain.v: the whole program as a relation between the file system before and after, with a constructor for each way to end", "case analysis on how the run ended; the loop invariant links the state between two chunks to the complete loop; C114, C58 and the stream lemmas of C59"),
"C127": ("ModelDistributions.v: the options of the feature and the main loop with the histogram update, over the histogram model of C60", "induction over chunks and particles; each update adds at most one to each histogram"),
"C128": ("the same model", "the loop is total from the shape invariant of the histograms (C60); the refutation shows every chunk returns at least one particle per ion and the first update indexes entry 1 of the axis"),
"C129": ("the sampling model of bca.rs over R", "closed form of the samples (C112's lemma), then primitives and their limits at 0 and 1 (u ln u tends to 0)"),
"C130": ("the histogram model over binary64 (Flocq)", "monotonicity of each rounded operation, floor and saturating cast; the relative error of one division; the refutations by computation"),
"C131": ("Vector and Particle::rotate over binary64 (Flocq)", "error of each rounded operation (relative, plus 2^-1075 below the normal range); the exact rotation of nearly exact data; renormalising absorbs the errors"),
"C132": ("collision_step, collision_loop and bca_step over binary64 (Flocq)", "relative errors of the mass factor, the product and the differences; invariant of the collision loop; errors add up linearly"),
}
